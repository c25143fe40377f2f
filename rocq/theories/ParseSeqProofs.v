From Verif Require Import Base DecimalSpec JsonStrSpec JsonIntModel ParseModel ParseSpec ParseProofs ParseReadProofs ParseExprProofs.
Open Scope Z_scope.
Open Scope list_scope.

(** * An error once recorded stays *)

Lemma keeps_ret : forall A (a : A), keeps (ret a).
Proof. intros A a s e b s' H E. injection E as <- <-. exact H. Qed.
Lemma keeps_bind : forall A B (m : M A) (k : A -> M B), keeps m -> (forall a, keeps (k a)) -> keeps (bind m k).
Proof.
  intros A B m k Hm Hk s e b s' H E. unfold bind in E. destruct (m s) as [a s1| |] eqn:E1; try discriminate.
  eapply Hk; [|exact E]. eapply Hm; eauto.
Qed.
Lemma keeps_report : forall A e0 (v : A), keeps (report e0 v).
Proof. intros A e0 v s e b s' H E. injection E as <- <-. rewrite ReportError_err, H. reflexivity. Qed.
Lemma Consume_keeps : forall s e, s_err s = Some e -> s_err (Consume s) = Some e.
Proof.
  intros [er [[reads fin]|] cur [|c l]] e H; cbn in H; subst; unfold Consume; cbn; auto.
  destruct reads as [|[c [e'|]] reads]; reflexivity.
Qed.
Lemma keeps_consumeLoop : forall fuel n, keeps (consumeLoop fuel n).
Proof.
  induction fuel as [|fuel IH]; intros n s e a s' H E; cbn [consumeLoop] in E; [discriminate|].
  destruct (_ && _).
  - eapply IH; [|exact E]. now apply Consume_keeps.
  - injection E as <- <-. exact H.
Qed.
Lemma keeps_ConsumeN : forall n, keeps (ConsumeN n).
Proof. intros n s e a s' H E. eapply keeps_consumeLoop; eauto. Qed.
Lemma keeps_Consume1 : forall b, keeps (Consume1 b).
Proof.
  intros b s e a s' H E. unfold Consume1 in E. destruct (s_current s) as [|c r]; [discriminate|].
  eapply keeps_ConsumeN; [|exact E]. destruct (b =? c); auto. now rewrite ReportError_err, H.
Qed.
Lemma PeekN_err : forall n s p e s', PeekN n s = (p, e, s') -> s_err s' = s_err s.
Proof.
  intros n s p e s' E. unfold PeekN in E. destruct (_ <=? _)%nat; [injection E as <- <- <-; auto|].
  destruct (s_reader s) as [r|]; [|injection E as <- <- <-; auto].
  destruct (peekNext _ _ _); [injection E as <- <- <-; auto|].
  destruct (peekReads _ _ _ _) as [[[p' e'] l] r']. injection E as <- <- <-. reflexivity.
Qed.
Lemma PeekRune_err : forall s x s', PeekRune s = (x, s') -> s_err s' = s_err s.
Proof.
  intros s x s' E. unfold PeekRune in E. destruct (s_current s); [now injection E as <- <-|].
  destruct (_ <=? _); [now injection E as <- <-|].
  destruct (PeekN _ _) as [[p e] s1] eqn:P. injection E as <- <-. eapply PeekN_err; eauto.
Qed.
Lemma keeps_scanLoop : forall A (body : A -> Z -> verdict A) zero fuel a, keeps (scanLoop body zero fuel a).
Proof.
  intros A body zero fuel a s e b s' H E. destruct fuel; cbn [scanLoop] in E; [discriminate|].
  rewrite H in E. injection E as <- <-. exact H.
Qed.
Lemma keeps_scan : forall A (body : A -> Z -> verdict A) zero a, keeps (scan body zero a).
Proof. intros A body zero a s e b s' H E. eapply keeps_scanLoop; eauto. Qed.
Lemma keeps_Peek1 : keeps Peek1.
Proof. intros s e b s' H E. unfold Peek1 in E. destruct (s_current s); [discriminate|]. now injection E as <- <-. Qed.
Lemma keeps_IntW : forall w msg, keeps (IntW w msg).
Proof.
  intros w msg. apply keeps_bind; [apply keeps_Peek1|]. intros c. destruct (c =? 45).
  - apply keeps_bind; [apply keeps_ConsumeN|]. intros _. apply keeps_bind; [apply keeps_scan|]. intros v.
    destruct (_ <? _); [apply keeps_report|apply keeps_ret].
  - apply keeps_bind; [apply keeps_scan|]. intros v. destruct (_ <? _); [apply keeps_report|apply keeps_ret].
Qed.
Lemma keeps_UnicodeRange : forall fuel t space, keeps (UnicodeRange fuel space t).
Proof.
  induction fuel as [|fuel IH]; intros t space s e a s' H E; cbn [UnicodeRange] in E; [discriminate|].
  destruct (PeekRune s) as [[r n] s1] eqn:P. apply PeekRune_err in P. rewrite <- P in H. destruct (t r).
  - refine (keeps_bind _ _ _ _ (keeps_ConsumeN _) (fun _ => IH t _) s1 e a s' H E).
  - injection E as <- <-. exact H.
Qed.
Lemma keeps_includesLoop : forall l space r n, keeps (includesLoop space l r n).
Proof.
  induction l as [|t l IH]; intros; cbn [includesLoop]; [apply keeps_ret|]. destruct (t r); [|apply IH].
  apply keeps_bind; [apply keeps_ConsumeN|]. intros _. apply IH.
Qed.
Lemma keeps_UnicodeRanges : forall fuel space incl excl, keeps (UnicodeRanges fuel space incl excl).
Proof.
  induction fuel as [|fuel IH]; intros space incl excl s e a s' H E; cbn [UnicodeRanges] in E; [discriminate|].
  destruct (PeekRune s) as [[r n] s1] eqn:P. apply PeekRune_err in P. rewrite <- P in H. destruct (existsb _ _).
  - injection E as <- <-. exact H.
  - destruct incl as [|t incl]; [|eapply keeps_includesLoop; eauto].
    refine (keeps_bind _ _ _ _ (keeps_ConsumeN _) (fun _ => IH _ _ _) s1 e a s' H E).
Qed.
Lemma keeps_SkipUnicodeRange : forall fuel t count, keeps (SkipUnicodeRange fuel count t).
Proof.
  induction fuel as [|fuel IH]; intros t count s e a s' H E; cbn [SkipUnicodeRange] in E; [discriminate|].
  destruct (PeekRune s) as [[r n] s1] eqn:P. apply PeekRune_err in P. rewrite <- P in H. destruct (t r).
  - refine (keeps_bind _ _ _ _ (keeps_ConsumeN _) (fun _ => IH t _) s1 e a s' H E).
  - injection E as <- <-. exact H.
Qed.
Lemma keeps_UnicodeSpace : forall fuel count, keeps (UnicodeSpace fuel count).
Proof.
  intros fuel count s e a s' H E. destruct fuel; cbn [UnicodeSpace] in E; [discriminate|].
  rewrite H in E. injection E as <- <-. exact H.
Qed.

Lemma keeps_perform : forall o, keeps (perform o).
Proof.
  destruct o; cbn [perform]; try (apply keeps_bind; [|intros; apply keeps_ret]);
    try apply keeps_Peek1; try apply keeps_ConsumeN; try apply keeps_Consume1; try apply keeps_scan;
    try (rewrite Int64_eq; apply keeps_IntW); try (rewrite Int32_eq; apply keeps_IntW);
    intros s e0 a s' H E; cbn in E.
  - now injection E as <- <-.
  - destruct (PeekN n s) as [[p e] s1] eqn:P. injection E as <- <-. apply PeekN_err in P. congruence.
  - destruct (PeekRune s) as [[r n] s1] eqn:P. injection E as <- <-. apply PeekRune_err in P. congruence.
  - injection E as <- <-. now apply Consume_keeps.
  - injection E as <- <-. now rewrite ReportError_err, H.
Qed.

Lemma keeps_serve : forall A (c : client A), keeps (serve c).
Proof.
  induction c as [a|o k IH]; [apply keeps_ret|]. apply keeps_bind; [apply keeps_perform|auto].
Qed.

(** Parse keeps the first error if the lexer does. *)
Lemma keeps_Parse : forall V P I PT IT PP IP, keeps PT -> keeps IT ->
  (forall rec t, (forall p, keeps (rec p)) -> keeps (PP rec t)) ->
  (forall rec t l, (forall p, keeps (rec p)) -> keeps (IP rec t l)) ->
  forall fuel p, keeps (Parse V P I PT IT PP IP fuel p).
Proof.
  intros V P I PT IT PP IP H1 H2 H3 H4. induction fuel as [|fuel IH]; intros p; [intros s e a s' _ E; discriminate|].
  cbn [Parse]. apply keeps_bind; auto. intros [t|]; [|apply keeps_report]. apply keeps_bind; auto. intros lft.
  intros s e a s' H E. destruct fuel as [|fuel]; cbn [parseLoop] in E; [discriminate|]. rewrite H in E. injection E as <- <-. exact H.
Qed.

(** * Chunking *)

(** Two sources a client cannot tell apart (except by Error() at the very end). *)
Definition end_state (s : Source) : Prop := s_err s = None \/ s_err s = Some (end_error s).
Definition same_view (s t : Source) : Prop :=
  clean s /\ clean t /\ compact s /\ compact t /\ remaining s = remaining t /\ end_error s = end_error t /\
  (s_err s = s_err t \/ remaining s = [] /\ end_state s /\ end_state t).

(** The results of the same call on both. *)
Definition agree {A} (x y : res A) : Prop :=
  match x, y with
  | Ok a s, Ok b t => s_err s = Some overflow64 /\ s_err t = Some overflow64 \/ a = b /\ same_view s t
  | Panic, Panic => True
  | OutOfFuel, OutOfFuel => True
  | _, _ => False
  end.

Lemma view_err : forall s t, same_view s t ->
  s_err s = s_err t \/ remaining s = [] /\ end_state s /\ end_state t.
Proof. intros s t H. apply H. Qed.

Definition agree_err {A} (x y : res A) : Prop :=
  match x, y with
  | Ok a s, Ok b t => s_err s = Some overflow64 /\ s_err t = Some overflow64 \/ a = b /\ same_view s t /\ s_err s = s_err t
  | _, _ => False
  end.
Lemma agree_err_agree : forall A (x y : res A), agree_err x y -> agree x y.
Proof. intros A [a s| |] [b t| |]; cbn; tauto. Qed.

Lemma scan_agree : forall A (body : A -> Z -> verdict A) zero a s t,
  (forall a c e, body a c = Fail e -> e = overflow64) -> same_view s t -> agree_err (scan body zero a s) (scan body zero a t).
Proof.
  intros A body zero a s t HF (Cs & Ct & Ks & Kt & R & En & X).
  assert (FW : forall l a a' b e, walk body a l = (a', b, Failed e) -> e = overflow64).
  { induction l as [|c l IH]; intros a0 a' b e E; cbn [walk] in E; [discriminate|].
    destruct (body a0 c) eqn:B; [eauto|discriminate|]. injection E as <- <- <-. eauto. }
  assert (Fin : forall s' t' : Source, clean s' -> clean t' -> compact s' -> compact t' -> remaining s' = remaining t' ->
    end_error s' = end_error t' -> s_err s' = s_err t' -> same_view s' t' /\ s_err s' = s_err t').
  { intros. split; auto. repeat split; auto. }
  assert (At : forall s, clean s -> compact s -> remaining s = [] -> end_state s ->
     exists s', scan body zero a s = Ok a s' /\ clean s' /\ compact s' /\ remaining s' = [] /\ end_error s' = end_error s /\
       s_err s' = Some (end_error s)).
  { intros s0 C K R0 [E|E].
    - destruct (scan_spec A body zero a s0 C E) as (s' & C' & En' & K' & W). rewrite R0 in W. cbn [walk] in W.
      destruct W as (W1 & W2 & W3). exists s'. auto 10.
    - exists s0. rewrite (scan_err _ _ _ _ _ _ E). auto 10. }
  destruct X as [X|(R0 & E1 & E2)].
  - destruct (s_err s) as [e|] eqn:Es.
    + rewrite (scan_err _ body zero a s e Es), (scan_err _ body zero a t e (eq_sym X)). cbn. right. split; auto. apply Fin; auto. congruence.
    + destruct (scan_spec A body zero a s Cs Es) as (s' & C' & En' & K' & W).
      destruct (scan_spec A body zero a t Ct (eq_sym X)) as (t' & C'' & En'' & K'' & W').
      rewrite <- R in W'. destruct (walk body a (remaining s)) as [[a' b] [| |e]] eqn:EW.
      * destruct W as (-> & R1 & E1), W' as (-> & R2 & E2). cbn. right. split; auto. apply Fin; auto; congruence.
      * destruct W as (-> & R1 & E1 & _), W' as (-> & R2 & E2 & _). cbn. right. split; auto. apply Fin; auto; congruence.
      * destruct W as (-> & E1), W' as (-> & E2). cbn. left. apply FW in EW. subst. auto.
  - destruct (At s Cs Ks R0 E1) as (s' & -> & C1 & K1 & R1 & N1 & Q1).
    destruct (At t Ct Kt ltac:(congruence) E2) as (t' & -> & C2 & K2 & R2 & N2 & Q2).
    cbn. right. split; auto. apply Fin; auto; congruence.
Qed.

Lemma ConsumeN_agree : forall n s t, same_view s t -> agree (ConsumeN n s) (ConsumeN n t).
Proof.
  intros n s t (Cs & Ct & Ks & Kt & R & En & X).
  destruct (le_lt_dec n (List.length (remaining s))) as [L|L].
  - destruct (ConsumeN_ok n s Cs L) as (s' & E1 & R1 & C1 & N1 & K1 & Er1 & _).
    rewrite R in L. destruct (ConsumeN_ok n t Ct L) as (t' & E2 & R2 & C2 & N2 & K2 & Er2 & _).
    rewrite E1, E2. cbn. right. split; auto. split; auto. split; auto. split; auto. split; auto. split; [congruence|].
    split; [congruence|].
    assert (Same : n = 0%nat -> s_err s' = s_err s /\ s_err t' = s_err t).
    { intros ->. unfold ConsumeN in E1, E2. rewrite rounds_chunks in E1, E2. cbn in E1, E2. injection E1 as <-. injection E2 as <-. auto. }
    destruct X as [X|(R0 & S1 & S2)].
    + destruct Er1 as [Er1|[Z1 Er1]], Er2 as [Er2|[Z2 Er2]].
      * left. congruence.
      * rewrite Er1, Er2, <- X. destruct (s_err s) as [e|] eqn:Es; [left; reflexivity|]. right.
        split; [congruence|]. rewrite <- X in Er2. unfold end_state. rewrite Er1, Er2, N2. cbn [or_else]. auto.
      * rewrite Er1, Er2, <- X. destruct (s_err s) as [e|] eqn:Es; [left; reflexivity|]. right.
        split; [congruence|]. rewrite <- X in Er2. unfold end_state. rewrite Er1, Er2, N1. cbn [or_else]. auto.
      * left. rewrite Er1, Er2, X, En. reflexivity.
    + assert (n = 0%nat) by (rewrite <- R, R0 in L; cbn in L; lia). destruct (Same H) as [A1 A2]. right.
      split; [rewrite R1, R0; now destruct n|]. unfold end_state in *. rewrite A1, A2, N1, N2. auto.
  - unfold ConsumeN. rewrite (consumeLoop_short _ n s Cs L). rewrite R in L. rewrite (consumeLoop_short _ n t Ct L). exact I.
Qed.

Lemma current_view : forall s t, same_view s t -> (s_current s = [] <-> s_current t = []) /\
  forall c cur, s_current s = c :: cur -> exists cur', s_current t = c :: cur'.
Proof.
  intros s t (Cs & Ct & Ks & Kt & R & _).
  assert (E : forall s, compact s -> (s_current s = [] <-> remaining s = [])).
  { intros s0 K. split; intros H.
    - destruct (remaining s0) eqn:Q; auto. exfalso. assert (remaining s0 <> []) by (rewrite Q; discriminate).
      apply compact_current in H0; auto.
    - unfold remaining, chunks in H. cbn [List.concat] in H. now apply app_eq_nil in H. }
  split; [rewrite !E by auto; now rewrite R|]. intros c cur Q.
  assert (N : s_current t <> []) by (intros Z0; apply (E t Kt) in Z0; rewrite <- R in Z0; apply (E s Ks) in Z0; congruence).
  apply (head_current t c (cur ++ List.concat (tl (chunks s)))); auto. rewrite <- R. unfold remaining, chunks. cbn [List.concat tl]. now rewrite Q.
Qed.

Lemma agree_map : forall A B (m : M A) (f : A -> B) s t, agree (m s) (m t) ->
  agree ((do v <- m; ret (f v)) s) ((do v <- m; ret (f v)) t).
Proof.
  intros A B m f s t H. unfold bind, ret. destruct (m s) as [a s'| |], (m t) as [b t'| |]; cbn in *; try tauto.
  destruct H as [H|[-> H]]; auto.
Qed.

Lemma view_report : forall s t e, same_view s t -> s_err s = s_err t ->
  same_view (ReportError e s) (ReportError e t).
Proof.
  intros s t e (Cs & Ct & Ks & Kt & R & En & X) E.
  assert (Kr : forall s, compact s -> compact (ReportError e s)) by (intros s0 K p q; rewrite ReportError_chunks; apply K).
  split; [now apply ReportError_clean|]. split; [now apply ReportError_clean|]. split; auto. split; auto.
  split; [unfold remaining in *; now rewrite !ReportError_chunks|]. split; [now rewrite !ReportError_end|].
  left. now rewrite !ReportError_err, E.
Qed.

Lemma uint64_fail : forall a c e, uint64Body a c = Fail e -> e = overflow64.
Proof.
  intros a c e H. unfold uint64Body in H. destruct (_ =? _); [discriminate|]. destruct (_ <? _); [|discriminate].
  destruct (_ <? _); [|discriminate]. now injection H as <-.
Qed.

Lemma tail_agree : forall (k : Z -> M Z) s t, same_view s t ->
  (forall a, keeps (k a)) -> (forall a s', exists b s'', k a s' = Ok b s'') ->
  (forall a s' t', same_view s' t' -> s_err s' = s_err t' -> agree (k a s') (k a t')) ->
  agree ((do v <- Uint64; k v) s) ((do v <- Uint64; k v) t).
Proof.
  intros k s t V Kp Tot H. pose proof (scan_agree Z uint64Body 0 0 s t uint64_fail V) as G. fold Uint64 in G.
  unfold bind. destruct (Uint64 s) as [a s'| |], (Uint64 t) as [b t'| |]; cbn in G; try tauto.
  destruct G as [[O1 O2]|(-> & V' & E)]; [|now apply H].
  destruct (Tot a s') as (x & s2 & E3), (Tot b t') as (y & t2 & E4). rewrite E3, E4. left.
  split; [exact (Kp _ _ _ _ _ O1 E3)|exact (Kp _ _ _ _ _ O2 E4)].
Qed.

Lemma IntW_agree : forall w msg s t, same_view s t -> agree (IntW w msg s) (IntW w msg t).
Proof.
  intros w msg s t V. destruct (current_view s t V) as [CV1 CV2].
  set (k := fun val => if 2^(w-1) <? val then report (ErrMsg msg) 0 else ret (wrap_signed w (- wrap_signed w val))).
  set (k' := fun val => if 2^(w-1) - 1 <? val then report (ErrMsg msg) 0 else ret (wrap_signed w val)).
  assert (EI : forall s, IntW w msg s = match s_current s with [] => Panic | c :: _ =>
    if c =? 45 then match ConsumeN 1 s with Ok _ s' => bind Uint64 k s' | Panic => Panic | OutOfFuel => OutOfFuel end else bind Uint64 k' s end).
  { intros s0. unfold IntW. unfold bind at 1. unfold Peek1. destruct (s_current s0); [reflexivity|]. destruct (_ =? 45); reflexivity. }
  rewrite !EI.
  assert (Tail : forall s t b f, same_view s t -> agree ((do val <- Uint64; if b <? val then report (ErrMsg msg) 0 else ret (f val)) s)
     ((do val <- Uint64; if b <? val then report (ErrMsg msg) 0 else ret (f val)) t)).
  { clear. intros s t b f V. apply tail_agree; auto.
    - intros a. destruct (_ <? _); [apply keeps_report|apply keeps_ret].
    - intros a s'. destruct (_ <? _); unfold report, ret; eauto.
    - intros a s' t' V' E. destruct (_ <? _); unfold report, ret; cbn; right; split; auto. now apply view_report. }
  destruct (s_current s) as [|c cur] eqn:C1.
  - destruct CV1 as [CV1 _]. now rewrite CV1.
  - destruct (CV2 _ _ eq_refl) as (cur' & ->). destruct (c =? 45); [|apply (Tail s t (2^(w-1) - 1) (wrap_signed w) V)].
    pose proof (ConsumeN_agree 1 s t V) as G. destruct (ConsumeN 1 s) as [[] s'| |] eqn:E1, (ConsumeN 1 t) as [[] t'| |] eqn:E2; cbn in G; try tauto.
    destruct G as [[O1 O2]|(_ & V')]; [|apply (Tail s' t' (2^(w-1)) (fun v => wrap_signed w (- wrap_signed w v)) V')].
    (* the error was there before *)
    assert (U : forall s, s_err s = Some overflow64 -> exists x s', bind Uint64 k s = Ok x s' /\ s_err s' = Some overflow64).
    { intros s0 O. unfold bind. unfold Uint64 at 1. rewrite (scan_err _ _ _ _ _ _ O). unfold k. destruct (_ <? _); unfold report, ret; eauto.
      do 2 eexists. split; [reflexivity|]. now rewrite ReportError_err, O. }
    destruct (U s' O1) as (x & s2 & E3 & O3), (U t' O2) as (y & t2 & E4 & O4).
    rewrite E3, E4. left. auto.
Qed.


Lemma Consume1_agree : forall b s t, same_view s t -> agree (Consume1 b s) (Consume1 b t).
Proof.
  intros b s t V. unfold Consume1. destruct (current_view s t V) as [CV1 CV2].
  destruct (s_current s) as [|c cur] eqn:C1.
  - destruct CV1 as [CV1 _]. now rewrite CV1.
  - destruct (CV2 _ _ eq_refl) as (cur' & ->). destruct (b =? c); [now apply ConsumeN_agree|].
    apply ConsumeN_agree, view_report; auto. destruct V as (Cs & Ct & Ks & Kt & R & En & [X|[R0 _]]); auto.
    exfalso. unfold remaining, chunks in R0. cbn [List.concat] in R0. rewrite C1 in R0. discriminate.
Qed.

Lemma view_extend : forall s t s' t', same_view s t ->
  remaining s' = remaining s -> clean s' -> end_error s' = end_error s -> s_err s' = s_err s ->
  remaining t' = remaining t -> clean t' -> end_error t' = end_error t -> s_err t' = s_err t ->
  compact s' -> compact t' -> same_view s' t'.
Proof.
  intros s t s' t' (Cs & Ct & Ks & Kt & R & En & X) R1 C1 N1 E1 R2 C2 N2 E2 K1 K2.
  repeat split; auto; try congruence. unfold end_state. rewrite R1, E1, E2, N1, N2. exact X.
Qed.

Lemma perform_agree : forall o s t, uncut o -> same_view s t -> agree (perform o s) (perform o t).
Proof.
  intros o s t U V. assert (NF : forall A (f : A -> Z -> verdict A), (forall a c, match f a c with Fail _ => False | _ => True end) ->
    forall a c e, f a c = Fail e -> e = overflow64).
  { intros A f Hf a c e E. specialize (Hf a c). rewrite E in Hf. tauto. }
  destruct o; cbn [perform]; try contradiction U.
  - unfold bind, Peek1, ret. destruct (current_view s t V) as [CV1 CV2]. destruct (s_current s) as [|c cur] eqn:C1.
    + destruct CV1 as [CV1 _]. now rewrite CV1.
    + destruct (CV2 _ _ eq_refl) as (cur' & ->). right. auto.
  - pose proof V as (Cs & Ct & Ks & Kt & R & En & X).
    destruct (PeekN_spec n s Cs) as (s' & -> & R1 & C1 & N1 & E1 & Cu1 & z & Z1 & Z2).
    destruct (PeekN_spec n t Ct) as (t' & -> & R2 & C2 & N2 & E2 & Cu2 & z' & Z1' & Z2').
    cbn [agree]. right. split; [rewrite R, En; reflexivity|]. eapply view_extend; eauto; eapply compact_extend; eauto.
  - pose proof V as (Cs & Ct & Ks & Kt & R & En & X). destruct (remaining s) as [|c0 r0] eqn:RS.
    + rewrite (peek_end s RS), (peek_end t (eq_sym R)). cbn [agree]. right. split; auto.
    + assert (N : remaining s <> []) by (rewrite RS; discriminate). rewrite <- RS in *.
      destruct (PeekRune_spec s Cs (compact_current _ Ks N)) as (s' & -> & R1 & C1 & N1 & E1 & Cu1 & z & Z1 & Z2).
      rewrite R in N.
      destruct (PeekRune_spec t Ct (compact_current _ Kt N)) as (t' & -> & R2 & C2 & N2 & E2 & Cu2 & z' & Z1' & Z2').
      rewrite R. destruct (DecodeRune (remaining t)). cbn [agree]. right. split; auto. eapply view_extend; eauto; eapply compact_extend; eauto.
  - apply (agree_map unit val (ConsumeN n) (fun _ => VU)), ConsumeN_agree, V.
  - apply (agree_map unit val (Consume1 b) (fun _ => VU)), Consume1_agree, V.
  - apply agree_map, agree_err_agree, scan_agree; auto. apply uint64_fail.
  - apply agree_map. rewrite Int64_eq. now apply IntW_agree.
  - apply agree_map. rewrite Int32_eq. now apply IntW_agree.
  - apply agree_map, agree_err_agree, scan_agree; auto. apply NF. intros a c. cbn. destruct (_ =? _); auto.
  - apply agree_map, agree_err_agree, scan_agree; auto. apply NF. intros a c. cbn. destruct (_ || _); auto.
  - apply agree_map, agree_err_agree, scan_agree; auto. apply NF. intros a c. cbn. destruct (is_space c); auto.
Qed.



Lemma err_eqb_spec : forall a b, err_eqb a b = true <-> a = b.
Proof.
  intros [|n|n] [|m|m]; cbn; split; try discriminate; auto; intros H.
  - apply Z.eqb_eq in H. congruence.
  - injection H as ->. apply Z.eqb_refl.
  - destruct (list_eq_dec _ _ _); congruence.
  - injection H as ->. destruct (list_eq_dec _ _ _); congruence.
Qed.

Lemma perform_end : forall o s t a s', uncut o -> same_view s t -> perform o s = Ok a s' -> end_error s' = end_error s.
Proof.
  assert (CE : forall s, end_error (Consume s) = end_error s).
  { intros [er [[[|[c [e|]] reads] fin]|] cur [|c' l]]; cbn; auto; unfold Consume; cbn; unfold ReportError; cbn; destruct er; reflexivity. }
  assert (CL : forall fuel n s a s', consumeLoop fuel n s = Ok a s' -> end_error s' = end_error s).
  { induction fuel as [|fuel IH]; intros n s a s' E; cbn [consumeLoop] in E; [discriminate|].
    destruct (_ && _); [|now injection E as <- <-]. apply IH in E. now rewrite E, CE. }
  assert (SL : forall A (body : A -> Z -> verdict A) zero fuel a s b s', scanLoop body zero fuel a s = Ok b s' -> end_error s' = end_error s).
  { induction fuel as [|fuel IH]; intros a s b s' E; cbn [scanLoop] in E; [discriminate|].
    destruct (s_err s); [now injection E as <- <-|]. destruct (scanBuf _ _ _ _) as [[a' i] [u| |e]].
    - apply IH in E. now rewrite E, CE.
    - unfold bind in E. destruct (ConsumeN i s) as [u s1| |] eqn:E1; try discriminate. injection E as <- <-. eapply CL; exact E1.
    - injection E as <- <-. now rewrite ReportError_end. }
  assert (BE : forall A B (m : M A) (k : A -> M B) s b s', bind m k s = Ok b s' -> exists a s1, m s = Ok a s1 /\ k a s1 = Ok b s').
  { intros A B m k s b s' E. unfold bind in E. destruct (m s) as [a s1| |]; try discriminate. eauto. }
  assert (P1 : forall s c s', Peek1 s = Ok c s' -> s' = s).
  { intros s c s' E. unfold Peek1 in E. destruct (s_current s); [discriminate|]. now injection E as <- <-. }
  assert (IE : forall w msg s a s', IntW w msg s = Ok a s' -> end_error s' = end_error s).
  { intros w msg s a s' E. apply BE in E as (c & s1 & E1 & E). apply P1 in E1. subst s1. destruct (c =? 45).
    - apply BE in E as (u & s1 & E1 & E). apply BE in E as (v & s2 & E2 & E). apply CL in E1. apply SL in E2.
      destruct (_ <? _); injection E as <- <-; rewrite ?ReportError_end; congruence.
    - apply BE in E as (v & s2 & E2 & E). apply SL in E2.
      destruct (_ <? _); injection E as <- <-; rewrite ?ReportError_end; congruence. }
  intros o s t a s' U V E. destruct o; cbn [perform] in E; try contradiction U.
  - apply BE in E as (c & s1 & E1 & E). apply P1 in E1. subst. now injection E as <- <-.
  - destruct V as (C & _). destruct (PeekN_spec n s C) as (s1 & E1 & _ & _ & N & _). rewrite E1 in E. injection E as <- <-. auto.
  - destruct V as (C & _ & K & _). destruct (remaining s) eqn:R.
    + rewrite (peek_end s R) in E. now injection E as <- <-.
    + destruct (PeekRune_spec s C (compact_current s K ltac:(rewrite R; discriminate))) as (s1 & E1 & _ & _ & N & _).
      rewrite E1 in E. destruct (DecodeRune _). injection E as <- <-. auto.
  - apply BE in E as (c & s1 & E1 & E). injection E as <- <-. eapply CL; exact E1.
  - apply BE in E as (c & s1 & E1 & E). injection E as <- <-. unfold Consume1 in E1. destruct (s_current s); [discriminate|].
    apply CL in E1. rewrite E1. destruct (b =? z); auto. now rewrite ReportError_end.
  - apply BE in E as (c & s1 & E1 & E). injection E as <- <-. eapply SL; exact E1.
  - apply BE in E as (c & s1 & E1 & E). injection E as <- <-. rewrite Int64_eq in E1. eapply IE; exact E1.
  - apply BE in E as (c & s1 & E1 & E). injection E as <- <-. rewrite Int32_eq in E1. eapply IE; exact E1.
  - apply BE in E as (c & s1 & E1 & E). injection E as <- <-. eapply SL; exact E1.
  - apply BE in E as (c & s1 & E1 & E). injection E as <- <-. eapply SL; exact E1.
  - apply BE in E as (c & s1 & E1 & E). injection E as <- <-. eapply SL; exact E1.
Qed.

Lemma serve_agree : forall A (c : client A), uncut_client c -> forall s t, same_view s t -> end_error s <> overflow64 ->
  match serve_until overflow64 c s, serve_until overflow64 c t with
  | Ok a s', Ok b t' => a = b /\ (a <> None -> same_view s' t')
  | Panic, Panic => True
  | OutOfFuel, OutOfFuel => True
  | _, _ => False
  end.
Proof.
  induction 1 as [a|o k Ho Hk IH]; intros s t V NO; cbn [serve_until].
  - cbn. auto.
  - unfold bind. pose proof (perform_agree o s t Ho V) as G.
    destruct (perform o s) as [a s'| |] eqn:P1, (perform o t) as [b t'| |] eqn:P2; cbn [agree] in G; try tauto.
    unfold Error. destruct G as [[-> ->]|[-> V']].
    + rewrite (proj2 (err_eqb_spec overflow64 overflow64) eq_refl). split; [reflexivity|congruence].
    + assert (NO' : end_error s' <> overflow64) by (rewrite (perform_end _ _ _ _ _ Ho V P1); exact NO).
      assert (Q : forall e, err_eqb e overflow64 = true -> (s_err s' = Some e <-> s_err t' = Some e)).
      { intros e He. apply err_eqb_spec in He. subst e. pose proof V' as (_ & _ & _ & _ & _ & En & [X|(R0 & S1 & S2)]).
        - now rewrite X.
        - unfold end_state in *. destruct S1 as [-> | ->], S2 as [-> | ->]; split; try discriminate; congruence. }
      destruct (s_err s') as [e|] eqn:Es, (s_err t') as [e'|] eqn:Et.
      * destruct (err_eqb e overflow64) eqn:B1.
        -- destruct (Q e B1) as [Q1 _]. specialize (Q1 eq_refl). injection Q1 as ->. rewrite B1. split; [reflexivity|congruence].
        -- destruct (err_eqb e' overflow64) eqn:B2; [|now apply IH].
           destruct (Q e' B2) as [_ Q1]. specialize (Q1 eq_refl). injection Q1 as ->. congruence.
      * destruct (err_eqb e overflow64) eqn:B1; [|now apply IH].
        destruct (Q e B1) as [Q1 _]. specialize (Q1 eq_refl). discriminate.
      * destruct (err_eqb e' overflow64) eqn:B1; [|now apply IH].
        destruct (Q e' B1) as [_ Q1]. specialize (Q1 eq_refl). discriminate.
      * now apply IH.
Qed.

Definition same_stream (s t : Source) : Prop :=
  clean s /\ clean t /\ end_error s = end_error t /\ s_err s = s_err t /\ (remaining s = remaining t \/ s_err s = Some overflow64).

Lemma scan_stream : forall A (body : A -> Z -> verdict A) zero a s t,
  (forall a c e, body a c = Fail e -> e = overflow64) -> same_stream s t ->
  exists v s' t', scan body zero a s = Ok v s' /\ scan body zero a t = Ok v t' /\ same_stream s' t'.
Proof.
  intros A body zero a s t HF (Cs & Ct & En & Er & X).
  assert (FW : forall l a a' b e, walk body a l = (a', b, Failed e) -> e = overflow64).
  { induction l as [|c l IH]; intros a0 a' b e E; cbn [walk] in E; [discriminate|].
    destruct (body a0 c) eqn:B; [eauto|discriminate|]. injection E as <- <- <-. eauto. }
  destruct (s_err s) as [e|] eqn:Es.
  - exists a, s, t. rewrite (scan_err _ _ _ _ _ _ Es), (scan_err _ body zero a t e (eq_sym Er)). split; auto. split; auto.
    unfold same_stream. rewrite Es, <- Er. auto.
  - destruct X as [R|X]; [|discriminate].
    destruct (scan_spec A body zero a s Cs Es) as (s' & C' & En' & _ & W).
    destruct (scan_spec A body zero a t Ct (eq_sym Er)) as (t' & C'' & En'' & _ & W').
    rewrite <- R in W'. destruct (walk body a (remaining s)) as [[a' b] [| |e]] eqn:EW.
    + destruct W as (W1 & R1 & E1), W' as (W1' & R2 & E2). exists a', s', t'. repeat split; auto; try congruence. left. congruence.
    + destruct W as (W1 & R1 & E1 & _), W' as (W1' & R2 & E2 & _). exists a', s', t'. repeat split; auto; try congruence. left. congruence.
    + destruct W as (W1 & E1), W' as (W1' & E2). exists zero, s', t'. apply FW in EW. subst. repeat split; auto; congruence.
Qed.

Lemma readers_agree : forall l, Forall reader_op l -> forall s t, same_stream s t ->
  exists v s' t', perform_all l s = Ok v s' /\ perform_all l t = Ok v t' /\ same_stream s' t'.
Proof.
  assert (NF : forall A (f : A -> Z -> verdict A), (forall a c, match f a c with Fail _ => False | _ => True end) ->
    forall a c e, f a c = Fail e -> e = overflow64).
  { intros A f Hf a c e E. specialize (Hf a c). rewrite E in Hf. tauto. }
  assert (Step : forall o s t, reader_op o -> same_stream s t -> exists v s' t', perform o s = Ok v s' /\ perform o t = Ok v t' /\ same_stream s' t').
  { intros o s t Ho H. destruct o; try contradiction Ho; cbn [perform]; unfold bind, ret.
    - destruct (scan_stream Z uint64Body 0 0 s t uint64_fail H) as (v & s' & t' & E1 & E2 & H'). change (Uint64 s = Ok v s') in E1. change (Uint64 t = Ok v t') in E2. rewrite E1, E2. eauto 10.
    - destruct (scan_stream bytes (fun sp c => if c =? b then Stop else Go (sp ++ [c])) [] space s t) as (v & s' & t' & E1 & E2 & H'); auto.
      { apply NF. intros a c. cbn. destruct (_ =? _); auto. }
      change (AnyExcept1 space b s = Ok v s') in E1. change (AnyExcept1 space b t = Ok v t') in E2. rewrite E1, E2. eauto 10.
    - destruct (scan_stream bytes (fun sp c => if (c =? b1) || (c =? b2) then Stop else Go (sp ++ [c])) [] space s t) as (v & s' & t' & E1 & E2 & H'); auto.
      { apply NF. intros a c. cbn. destruct (_ || _); auto. }
      change (AnyExcept2 space b1 b2 s = Ok v s') in E1. change (AnyExcept2 space b1 b2 t = Ok v t') in E2. rewrite E1, E2. eauto 10.
    - destruct (scan_stream Z (fun n c => if is_space c then Go (n + 1) else Stop) 0 0 s t) as (v & s' & t' & E1 & E2 & H'); auto.
      { apply NF. intros a c. cbn. destruct (is_space c); auto. }
      change (Space  s = Ok v s') in E1. change (Space  t = Ok v t') in E2. rewrite E1, E2. eauto 10. }
  induction 1 as [|o l Ho Hl IH]; intros s t H; cbn [perform_all].
  - exists [], s, t. auto.
  - destruct (Step o s t Ho H) as (v & s1 & t1 & E1 & E2 & H1). destruct (IH s1 t1 H1) as (vs & s2 & t2 & E3 & E4 & H2).
    exists ((v, s_err s1) :: vs), s2, t2. unfold bind. rewrite E1, E2. unfold Error. rewrite E3, E4. cbn.
    destruct H1 as (_ & _ & _ & -> & _). auto.
Qed.

(** Making a source over a reader. *)
Lemma NewSource_spec : forall reads fin s e, NewSource (mkReader reads fin) = (Some s, e) ->
  Forall (fun p => snd p = None) reads ->
  e = None /\ clean s /\ remaining s = List.concat (map fst reads) /\ end_error s = fin /\ s_err s = None /\
  (Forall (fun p => fst p <> []) reads -> compact s).
Proof.
  intros reads fin s e E F. unfold NewSource, Read in E. cbn [r_reads r_end] in E. destruct reads as [|[c er] reads]; [discriminate|].
  destruct c as [|c0 c]; [discriminate|]. injection E as <- <-. inversion F; subst. split; auto. split; auto. split; auto. split; auto. split; auto.
  intros NE p q Q. exfalso. unfold chunks in Q. cbn in Q. inversion NE; subst.
  assert (In [] ((c0 :: c) :: map fst reads)) by (refine (eq_ind_r (fun l => In [] l) _ Q); apply in_or_app; right; left; auto).
  destruct H as [H|H]; [discriminate|]. apply in_map_iff in H as ([x y] & H & I). cbn in H. subst.
  rewrite Forall_forall in H4. apply H4 in I. cbn in I. congruence.
Qed.
Lemma NewSourceString_spec : forall t, clean (NewSourceString t) /\ remaining (NewSourceString t) = t /\
  end_error (NewSourceString t) = EOF /\ s_err (NewSourceString t) = None /\ compact (NewSourceString t).
Proof.
  intros t. repeat split; auto; [cbn; apply app_nil_r|]. intros p q Q. unfold chunks in Q. cbn in Q.
  destruct p as [|x p]; [injection Q as _ <-; reflexivity|]. injection Q as _ Q. destruct p; discriminate.
Qed.

(** * Streams *)

Lemma stream_spec : forall l, Forall stream_op l -> forall s, clean s ->
  match perform_all l s with
  | Ok outs s' => stream_ok (remaining s) (combine l (map fst outs)) (remaining s') /\ clean s'
  | Panic => False
  | OutOfFuel => exists l1 n l2 outs s1, l = l1 ++ OConsumeN n :: l2 /\ perform_all l1 s = Ok outs s1 /\ (List.length (remaining s1) < n)%nat
  end.
Proof.
  induction 1 as [|o l Ho Hl IH]; intros s C; cbn [perform_all]; [cbn; auto|].
  unfold bind at 1. destruct (perform o s) as [v s1| |] eqn:E.
  - assert (C1 : clean s1 /\ match o, v with
       | OPeek, VB c => (exists s', remaining s = c ++ s') /\ remaining s1 = remaining s
       | OPeekN n, VP p e => p = firstn n (remaining s) /\ (e = None <-> (n <= List.length (remaining s))%nat) /\ remaining s1 = remaining s
       | OConsumeN n, VU => (n <= List.length (remaining s))%nat /\ remaining s1 = skipn n (remaining s)
       | OConsume, VB c => remaining s = c ++ remaining s1
       | _, _ => False end).
    { destruct o; try contradiction Ho; cbn [perform] in E.
      - injection E as <- <-. split; auto. split; auto. unfold remaining, chunks, Peek. cbn [List.concat]. eauto.
      - destruct (PeekN_spec n s C) as (s' & P & R & C' & _). rewrite P in E. injection E as <- <-. split; auto. split; auto. split; auto.
        destruct (Nat.leb_spec n (List.length (remaining s))); split; auto; try congruence. lia.
      - injection E as <- <-. split; [now apply Consume_spec|]. now apply Consume_remaining.
      - unfold bind in E. destruct (le_lt_dec n (List.length (remaining s))) as [L|L].
        + destruct (ConsumeN_ok n s C L) as (s' & P & R & C' & _). rewrite P in E. injection E as <- <-. auto.
        + unfold ConsumeN in E. rewrite (consumeLoop_short _ n s C L) in E. discriminate. }
    destruct C1 as [C1 H]. specialize (IH s1 C1). unfold bind. destruct (perform_all l s1) as [outs s2| |] eqn:E2; auto.
    + cbn [map fst combine ret]. destruct IH as [IH C2]. split; auto.
      destruct o, v; try contradiction; cbn [stream_ok].
      * destruct H as [H Q]. rewrite <- Q in *. auto.
      * destruct H as (H1 & H2 & Q). rewrite <- Q in *. auto.
      * exists (remaining s1). auto.
      * destruct H as [H Q]. rewrite <- Q. auto.
    + destruct IH as (l1 & n & l2 & outs & s3 & -> & E3 & L). exists (o :: l1), n, l2. unfold bind. cbn [perform_all]. unfold bind. rewrite E, E3.
      eauto 10.
  - destruct o; try contradiction Ho; cbn [perform] in E; try discriminate.
    + destruct (PeekN n s) as [[? ?] ?]. discriminate.
    + unfold bind in E. destruct (le_lt_dec n (List.length (remaining s))) as [L|L].
      * destruct (ConsumeN_ok n s C L) as (s' & P & _). rewrite P in E. discriminate.
      * unfold ConsumeN in E. rewrite (consumeLoop_short _ n s C L) in E. discriminate.
  - destruct o; try contradiction Ho; cbn [perform] in E; try discriminate.
    + destruct (PeekN n s) as [[? ?] ?]. discriminate.
    + unfold bind in E. destruct (le_lt_dec n (List.length (remaining s))) as [L|L].
      * destruct (ConsumeN_ok n s C L) as (s' & P & _). rewrite P in E. discriminate.
      * exists [], n, l, [], s. cbn. auto.
Qed.
