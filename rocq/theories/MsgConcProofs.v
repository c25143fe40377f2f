(** Invariants of calls of msgfmt in several goroutines. *)
From Verif Require Import Base PoolModel PoolProofs MsgfmtModel MsgfmtTopProofs MsgConcModel MsgConcSpec.
From Verif Require ParseModel.

Definition callOf (p : mpc) : option call :=
  match p with MGot c _ | MMissed c _ | MCompiled c _ _ | MHas c _ _ | MFormatted c _ | MWrote c _ => Some c | _ => None end.
Definition holds (p : mpc) : option nat :=
  match p with MGot _ a | MMissed _ a | MCompiled _ a _ | MHas _ a _ => Some a | MFormatted _ b | MWrote _ b => Some (fst b) | _ => None end.

Section Proofs.
  Variable encoderOf : Z -> option (value -> option bytes).
  Variable timeString : Z -> bytes.
  Variable timeFormat : bytes -> Z -> bytes.
  Variable trimSpace : bytes -> bytes.
  Variable argsText : list value -> bytes.
  Variable panicText : bytes.
  Variable fuel : nat.
  Notation step := (MsgConcModel.step encoderOf timeString timeFormat trimSpace argsText panicText fuel).
  Notation run := (MsgConcModel.run encoderOf timeString timeFormat trimSpace argsText panicText fuel).
  Notation compile := (MsgfmtModel.compile encoderOf trimSpace panicText fuel).
  Notation Format := (MsgfmtModel.Format timeString timeFormat argsText).
  Notation Sprintf := (MsgfmtModel.Sprintf encoderOf timeString timeFormat trimSpace argsText panicText fuel).
  Notation cache_after := (MsgfmtTopProofs.cache_after encoderOf timeString timeFormat trimSpace argsText panicText fuel).
  Notation as_if := (MsgConcSpec.as_if encoderOf timeString timeFormat trimSpace argsText panicText fuel).

  Lemma run_app : forall a s b, run s (a ++ b) = match run s a with Some s' => run s' b | None => None end.
  Proof. induction a as [|e a IH]; intros s b; [reflexivity|]. cbn [app MsgConcModel.run]. destruct (step s e); [apply IH|reflexivity]. Qed.
  Lemma run_snoc : forall a s e, run s (a ++ [e]) = match run s a with Some s' => step s' e | None => None end.
  Proof. intros a s e. rewrite run_app. destruct (run s a) as [s'|]; [|reflexivity]. cbn [MsgConcModel.run]. destruct (step s' e); reflexivity. Qed.
  Lemma begun_app : forall a b h, begun (a ++ b) h = match begun a h with Some c => Some c | None => begun b h end.
  Proof. induction a as [|e a IH]; intros b h; [reflexivity|]. destruct e; cbn [app begun]; try apply IH. destruct (h0 =? h)%nat; [reflexivity|apply IH]. Qed.
  Lemma begun_keep : forall a b h c, begun a h = Some c -> begun (a ++ b) h = Some c.
  Proof. intros a b h c E. rewrite begun_app, E. reflexivity. Qed.
  Lemma used_keep : forall a b f kv, used a f kv -> used (a ++ b) f kv.
  Proof. intros a b f kv (h & c & B & R). exists h, c. split; [exact (begun_keep _ _ _ _ B)|exact R]. Qed.

  (** A formatter that was made for a call with this format *)
  Definition made (evs : list event) (format : bytes) (f : formatter) : Prop := exists kv src, used evs format kv /\ compile format kv = ParseModel.Ok f src.
  Lemma made_keep : forall a b t f, made a t f -> made (a ++ b) t f.
  Proof. intros a b t f (kv & src & U & C). exists kv, src. split; [exact (used_keep _ _ _ _ U)|exact C]. Qed.

  Record inv (evs : list event) (s : state) : Prop := mkInv {
    v_lt : forall h a, holds (mcalls s h) = Some a -> (a < List.length (marrays s))%nat;
    v_pool : forall a, In a (ids (mpool s)) -> (a < List.length (marrays s))%nat;
    v_once : forall h h' a, holds (mcalls s h) = Some a -> holds (mcalls s h') = Some a -> h = h';
    v_nodup : NoDup (ids (mpool s));
    v_free : forall h a, holds (mcalls s h) = Some a -> ~ In a (ids (mpool s));
    v_begun : forall h c, callOf (mcalls s h) = Some c -> begun evs h = Some c;
    v_fresh : forall h, mcalls s h = MFresh -> begun evs h = None;
    v_cache : forall t f, load (mcache s) t = Some f -> made evs t f;
    v_has : forall h c a f, mcalls s h = MCompiled c a f \/ mcalls s h = MHas c a f -> made evs (cformat c) f;
    v_text : forall h c b, mcalls s h = MFormatted c b \/ mcalls s h = MWrote c b -> exists f, made evs (cformat c) f /\ Format f [] (ckv c) = Some (content (marrays s) b)
  }.
  Lemma inv_init : inv [] init.
  Proof. constructor; cbn; intros; try discriminate; try contradiction; try constructor; intuition discriminate. Qed.

  Lemma set_same : forall f h x, set f h x h = x. Proof. intros. unfold set. now rewrite Nat.eqb_refl. Qed.
  Lemma set_other : forall f h x v, v <> h -> set f h x v = f v. Proof. intros f h x v N. unfold set. destruct (Nat.eqb_spec v h); [contradiction|reflexivity]. Qed.
  Lemma set_cases : forall f h x v, (v = h /\ set f h x v = x) \/ (v <> h /\ set f h x v = f v).
  Proof. intros f h x v. destruct (Nat.eq_dec v h) as [->|N]; [left; split; [reflexivity|apply set_same]|right; split; [exact N|now apply set_other]]. Qed.

  (** Steps that only move a call on, with the same buffer *)
  Lemma inv_move : forall evs s e h p, inv evs s -> (forall v, begun (evs ++ [e]) v = begun evs v) -> holds p = holds (mcalls s h) \/ holds p = None ->
    (forall c, callOf p = Some c -> begun evs h = Some c) -> p <> MFresh ->
    (forall c a f, p = MCompiled c a f \/ p = MHas c a f -> made evs (cformat c) f) ->
    (forall c b, p = MFormatted c b \/ p = MWrote c b -> exists f, made evs (cformat c) f /\ Format f [] (ckv c) = Some (content (marrays s) b)) ->
    inv (evs ++ [e]) (mkState (mcache s) (marrays s) (mpool s) (set (mcalls s) h p)).
  Proof.
    intros evs s e h p Hi Be Ho Ca Fr Ha Te. destruct Hi as [V1 V2 V3 V4 V5 V6 V7 V8 V9 V10].
    assert (Hold : forall v a, holds (set (mcalls s) h p v) = Some a -> holds (mcalls s v) = Some a).
    { intros v a E. destruct (set_cases (mcalls s) h p v) as [[-> Q]|[N Q]]; rewrite Q in E; [|exact E]. destruct Ho as [O|O]; [now rewrite <- O|rewrite O in E; discriminate E]. }
    constructor; cbn [mcache marrays mpool mcalls].
    - intros v a E. exact (V1 v a (Hold v a E)).
    - exact V2.
    - intros v v' a E E'. exact (V3 v v' a (Hold v a E) (Hold v' a E')).
    - exact V4.
    - intros v a E. exact (V5 v a (Hold v a E)).
    - intros v c E. rewrite Be. destruct (set_cases (mcalls s) h p v) as [[-> Q]|[N Q]]; rewrite Q in E; [exact (Ca c E)|exact (V6 v c E)].
    - intros v E. rewrite Be. destruct (set_cases (mcalls s) h p v) as [[-> Q]|[N Q]]; rewrite Q in E; [contradiction|exact (V7 v E)].
    - intros t f E. apply made_keep. exact (V8 t f E).
    - intros v c a f E. apply made_keep. destruct (set_cases (mcalls s) h p v) as [[-> Q]|[N Q]]; rewrite Q in E; [exact (Ha c a f E)|exact (V9 v c a f E)].
    - intros v c b E. destruct (set_cases (mcalls s) h p v) as [[-> Q]|[N Q]]; rewrite Q in E.
      + destruct (Te c b E) as (f & F1 & F2). exists f. split; [now apply made_keep|exact F2].
      + destruct (V10 v c b E) as (f & F1 & F2). exists f. split; [now apply made_keep|exact F2].
  Qed.
  (** Events that begin nothing *)
  Lemma begun_same : forall evs e, (forall h c i, e <> Begin h c i) -> forall v, begun (evs ++ [e]) v = begun evs v.
  Proof. intros evs e N v. rewrite begun_app. destruct (begun evs v); [reflexivity|]. destruct e; try reflexivity. now destruct (N h c i). Qed.
  Lemma inv_same : forall evs s e, inv evs s -> (forall h c i, e <> Begin h c i) -> inv (evs ++ [e]) s.
  Proof.
    intros evs s e [V1 V2 V3 V4 V5 V6 V7 V8 V9 V10] N. pose proof (begun_same evs e N) as Be. constructor; auto.
    - intros h c E. rewrite Be. exact (V6 h c E).
    - intros h E. rewrite Be. exact (V7 h E).
    - intros t f E. apply made_keep. exact (V8 t f E).
    - intros h c a f E. apply made_keep. exact (V9 h c a f E).
    - intros h c b E. destruct (V10 h c b E) as (f & F1 & F2). exists f. split; [now apply made_keep|exact F2].
  Qed.

  Lemma inv_step : forall evs s e s', inv evs s -> step s e = Some s' -> inv (evs ++ [e]) s'.
  Proof.
    intros evs s e s' Hi E. destruct e as [h c i|i|h|h|h|h cap|h rec|h|h|h|h rec|h|h rec].
    - (* Begin *)
      assert (X : exists a arrs pool, s' = mkState (mcache s) arrs pool (set (mcalls s) h (MGot c a)) /\ mcalls s h = MFresh /\ (a < List.length arrs)%nat /\
        (forall v, holds (mcalls s v) <> Some a) /\ ~ In a (ids pool) /\ (forall x, In x (ids pool) -> In x (ids (mpool s))) /\ NoDup (ids pool) /\
        (List.length (marrays s) <= List.length arrs)%nat /\ forall b, (fst b < List.length (marrays s))%nat -> content arrs b = content (marrays s) b).
      { cbn [MsgConcModel.step] in E. destruct i as [i|]; destruct (mcalls s h) eqn:M; try discriminate E.
        - destruct (toWriter c); [|discriminate E]. destruct (nth_error (mpool s) i) as [[a k]|] eqn:Ni; [|discriminate E]. injection E as <-.
          assert (In a (ids (mpool s))) by (unfold ids; apply nth_error_In in Ni; exact (in_map fst _ _ Ni)).
          exists a, (marrays s), (remove_nth (mpool s) i). split; [reflexivity|]. split; [reflexivity|]. split; [exact (v_pool _ _ Hi _ H)|].
          split; [intros v K; exact (v_free _ _ Hi _ _ K H)|]. split; [exact (remove_nth_gone _ _ _ _ (v_nodup _ _ Hi) Ni)|]. split; [intros x; apply remove_nth_in|].
          split; [exact (remove_nth_nodup _ _ (v_nodup _ _ Hi))|]. split; [lia|reflexivity].
        - injection E as <-. exists (List.length (marrays s)), (marrays s ++ [newBuf c]), (mpool s). split; [reflexivity|]. split; [reflexivity|].
          split; [rewrite app_length; cbn [List.length]; lia|]. split; [intros v K; apply (v_lt _ _ Hi) in K; lia|]. split; [intro K; apply (v_pool _ _ Hi) in K; lia|].
          split; [auto|]. split; [exact (v_nodup _ _ Hi)|]. split; [rewrite app_length; lia|]. intros b L. now apply content_app. }
      destruct X as (a & arrs & pl & -> & Fr & La & Nh & Np & Sub & Nd & Le & Co). pose proof (v_fresh _ _ Hi h Fr) as Bn.
      assert (Be : forall v, begun (evs ++ [Begin h c i]) v = if (h =? v)%nat then Some c else begun evs v).
      { intro v. rewrite begun_app. destruct (Nat.eqb_spec h v) as [<-|N]; [rewrite Bn; cbn [begun]; now rewrite Nat.eqb_refl|].
        destruct (begun evs v); [reflexivity|]. cbn [begun]. destruct (Nat.eqb_spec h v); [contradiction|reflexivity]. }
      destruct Hi as [V1 V2 V3 V4 V5 V6 V7 V8 V9 V10]. constructor; cbn [mcache marrays mpool mcalls].
      + intros v x K. destruct (set_cases (mcalls s) h (MGot c a) v) as [[-> Q]|[N Q]]; rewrite Q in K; [injection K as <-; exact La|specialize (V1 v x K); lia].
      + intros x K. specialize (V2 x (Sub x K)). lia.
      + intros v v' x K K'. destruct (set_cases (mcalls s) h (MGot c a) v) as [[-> Q]|[N Q]]; rewrite Q in K; destruct (set_cases (mcalls s) h (MGot c a) v') as [[-> Q']|[N' Q']]; rewrite Q' in K'.
        * reflexivity.
        * injection K as <-. now destruct (Nh v').
        * injection K' as <-. now destruct (Nh v).
        * exact (V3 v v' x K K').
      + exact Nd.
      + intros v x K I. destruct (set_cases (mcalls s) h (MGot c a) v) as [[-> Q]|[N Q]]; rewrite Q in K; [injection K as <-; contradiction|exact (V5 v x K (Sub x I))].
      + intros v x K. rewrite Be. destruct (set_cases (mcalls s) h (MGot c a) v) as [[-> Q]|[N Q]]; rewrite Q in K; [now rewrite Nat.eqb_refl|].
        destruct (Nat.eqb_spec h v) as [<-|_]; [contradiction|exact (V6 v x K)].
      + intros v K. rewrite Be. destruct (set_cases (mcalls s) h (MGot c a) v) as [[-> Q]|[N Q]]; rewrite Q in K; [discriminate K|].
        destruct (Nat.eqb_spec h v) as [<-|_]; [contradiction|exact (V7 v K)].
      + intros t f K. apply made_keep. exact (V8 t f K).
      + intros v x y f K. apply made_keep. destruct (set_cases (mcalls s) h (MGot c a) v) as [[-> Q]|[N Q]]; rewrite Q in K; [destruct K as [K|K]; discriminate K|exact (V9 v x y f K)].
      + intros v x b K. destruct (set_cases (mcalls s) h (MGot c a) v) as [[-> Q]|[N Q]]; rewrite Q in K; [destruct K as [K|K]; discriminate K|].
        destruct (V10 v x b K) as (f & F1 & F2). exists f. split; [now apply made_keep|]. rewrite Co; [exact F2|]. apply (V1 v). destruct K as [-> | ->]; reflexivity.
    - (* Drops *)
      cbn [MsgConcModel.step] in E. injection E as <-. pose proof (inv_same evs s (Drops i) Hi ltac:(discriminate)) as [V1 V2 V3 V4 V5 V6 V7 V8 V9 V10].
      constructor; cbn [mcache marrays mpool mcalls]; auto.
      + intros a K. exact (V2 a (remove_nth_in _ _ _ K)).
      + exact (remove_nth_nodup _ _ V4).
      + intros h a K I. exact (V5 h a K (remove_nth_in _ _ _ I)).
    - (* Load *)
      cbn [MsgConcModel.step] in E. destruct (mcalls s h) as [|c a| | | | | |] eqn:M; try discriminate E.
      assert (Bc : begun evs h = Some c) by (apply (v_begun _ _ Hi); rewrite M; reflexivity).
      destruct (load (mcache s) (cformat c)) as [f|] eqn:L; injection E as <-; apply inv_move; try exact Hi; try (apply begun_same; discriminate); try discriminate;
        try (left; rewrite M; reflexivity); try (intros ? [= <-]; exact Bc); try (intros ? ? [K|K]; discriminate K).
      + intros ? ? ? [K|K]; [discriminate K|]. injection K as <- <- <-. exact (v_cache _ _ Hi _ _ L).
      + intros ? ? ? [K|K]; discriminate K.
    - (* Compile *)
      cbn [MsgConcModel.step] in E. destruct (mcalls s h) as [| |c a| | | | |] eqn:M; try discriminate E.
      assert (Bc : begun evs h = Some c) by (apply (v_begun _ _ Hi); rewrite M; reflexivity).
      destruct (compile (cformat c) (ckv c)) as [f src| |] eqn:C; try discriminate E. injection E as <-. apply inv_move; try exact Hi; try (apply begun_same; discriminate); try discriminate.
      + left. rewrite M. reflexivity.
      + intros ? [= <-]. exact Bc.
      + intros ? ? ? [K|K]; [|discriminate K]. injection K as <- <- <-. exists (ckv c), src. split; [|exact C]. exists h, c. auto.
      + intros ? ? [K|K]; discriminate K.
    - (* Store *)
      cbn [MsgConcModel.step] in E. destruct (mcalls s h) as [| | |c a f| | | |] eqn:M; try discriminate E. injection E as <-.
      assert (Bc : begun evs h = Some c) by (apply (v_begun _ _ Hi); rewrite M; reflexivity).
      assert (Md : made evs (cformat c) f) by (apply (v_has _ _ Hi h c a); left; exact M).
      assert (Y : inv (evs ++ [Store h]) (mkState (mcache s) (marrays s) (mpool s) (set (mcalls s) h (MHas c a f)))).
      { apply inv_move; try exact Hi; try (apply begun_same; discriminate); try discriminate.
        - left. rewrite M. reflexivity.
        - intros ? [= <-]. exact Bc.
        - intros ? ? ? [K|K]; [discriminate K|]. injection K as <- <- <-. exact Md.
        - intros ? ? [K|K]; discriminate K. }
      destruct Y as [V1 V2 V3 V4 V5 V6 V7 V8 V9 V10]. constructor; cbn [mcache marrays mpool mcalls] in *; auto.
      intros t g K. cbn [load] in K. unfold MsgfmtModel.bytes_eqb in K. destruct (list_eq_dec Z.eq_dec (cformat c) t) as [<-|]; [|exact (V8 t g K)]. injection K as <-. now apply made_keep.
    - (* Fmt *)
      cbn [MsgConcModel.step] in E. destruct (mcalls s h) as [| | | |c a f| | |] eqn:M; try discriminate E.
      destruct (Format f [] (ckv c)) as [text|] eqn:F; [|discriminate E]. destruct (appendTo (marrays s) a text cap) as [arrs b] eqn:Ap. injection E as <-.
      assert (Bc : begun evs h = Some c) by (apply (v_begun _ _ Hi); rewrite M; reflexivity).
      assert (Md : made evs (cformat c) f) by (apply (v_has _ _ Hi h c a); right; exact M).
      assert (La : (a < List.length (marrays s))%nat) by (apply (v_lt _ _ Hi h); rewrite M; reflexivity).
      assert (X : content arrs b = text /\ (fst b < List.length arrs)%nat /\ (List.length (marrays s) <= List.length arrs)%nat /\ (fst b = a \/ fst b = List.length (marrays s)) /\
        forall b', fst b' <> a -> (fst b' < List.length (marrays s))%nat -> content arrs b' = content (marrays s) b').
      { unfold appendTo in Ap. destruct (List.length text <=? List.length (nth a (marrays s) []))%nat; injection Ap as <- <-; cbn [fst].
        - split; [|split; [rewrite put_length; exact La|split; [rewrite put_length; lia|split; [auto|]]]].
          + unfold content. cbn [fst snd]. rewrite put_same by exact La. apply firstn_exact.
          + intros b' N _. now apply content_put.
        - split; [|split; [rewrite app_length; cbn [List.length]; lia|split; [rewrite app_length; lia|split; [auto|]]]].
          + unfold content. cbn [fst snd]. rewrite app_nth2 by lia. rewrite Nat.sub_diag. cbn [nth]. apply firstn_exact.
          + intros b' _ L. now apply content_app. }
      destruct X as (Ct & Lb & Le & Eb & Co). pose proof (begun_same evs (Fmt h cap) ltac:(discriminate)) as Be. destruct Hi as [V1 V2 V3 V4 V5 V6 V7 V8 V9 V10].
      constructor; cbn [mcache marrays mpool mcalls].
      + intros v x K. destruct (set_cases (mcalls s) h (MFormatted c b) v) as [[-> Q]|[N Q]]; rewrite Q in K; [injection K as <-; exact Lb|specialize (V1 v x K); lia].
      + intros x K. specialize (V2 x K). lia.
      + assert (One : forall v x, v <> h -> holds (mcalls s v) = Some x -> fst b <> x).
        { intros v x N K Q. destruct Eb as [Eb|Eb]; [|specialize (V1 v x K); lia]. apply N. apply (V3 v h x K). rewrite M. cbn [holds]. congruence. }
        intros v v' x K K'. destruct (set_cases (mcalls s) h (MFormatted c b) v) as [[-> Q]|[N Q]]; rewrite Q in K; destruct (set_cases (mcalls s) h (MFormatted c b) v') as [[-> Q']|[N' Q']]; rewrite Q' in K'.
        * reflexivity.
        * injection K as <-. now destruct (One v' _ N' K').
        * injection K' as <-. now destruct (One v _ N K).
        * exact (V3 v v' x K K').
      + exact V4.
      + intros v x K I. destruct (set_cases (mcalls s) h (MFormatted c b) v) as [[-> Q]|[N Q]]; rewrite Q in K; [|exact (V5 v x K I)].
        injection K as <-. destruct Eb as [Eb|Eb]; [rewrite Eb in I; apply (V5 h a); [rewrite M; reflexivity|exact I]|specialize (V2 _ I); lia].
      + intros v x K. rewrite Be. destruct (set_cases (mcalls s) h (MFormatted c b) v) as [[-> Q]|[N Q]]; rewrite Q in K; [injection K as <-; exact Bc|exact (V6 v x K)].
      + intros v K. rewrite Be. destruct (set_cases (mcalls s) h (MFormatted c b) v) as [[-> Q]|[N Q]]; rewrite Q in K; [discriminate K|exact (V7 v K)].
      + intros t g K. apply made_keep. exact (V8 t g K).
      + intros v x y g K. apply made_keep. destruct (set_cases (mcalls s) h (MFormatted c b) v) as [[-> Q]|[N Q]]; rewrite Q in K; [destruct K as [K|K]; discriminate K|exact (V9 v x y g K)].
      + intros v x b' K. destruct (set_cases (mcalls s) h (MFormatted c b) v) as [[-> Q]|[N Q]]; rewrite Q in K.
        * destruct K as [K|K]; [|discriminate K]. injection K as <- <-. exists f. split; [now apply made_keep|]. now rewrite Ct.
        * destruct (V10 v x b' K) as (g & G1 & G2). exists g. split; [now apply made_keep|]. assert (Hb : holds (mcalls s v) = Some (fst b')) by (destruct K as [-> | ->]; reflexivity).
          rewrite Co; [exact G2| |exact (V1 v _ Hb)]. intro Q'. apply N. apply (V3 v h (fst b') Hb). rewrite M. cbn [holds]. now rewrite Q'.
    - (* Reads *)
      cbn [MsgConcModel.step] in E. destruct (mcalls s h); try discriminate E. destruct (_ && _); [|discriminate E]. injection E as <-. apply inv_same; [exact Hi|discriminate].
    - (* WriteReturns *)
      cbn [MsgConcModel.step] in E. destruct (mcalls s h) as [| | | | |c b| |] eqn:M; try discriminate E. destruct (toWriter c); [|discriminate E]. injection E as <-.
      apply inv_move; try exact Hi; try (apply begun_same; discriminate); try discriminate.
      + left. rewrite M. reflexivity.
      + intros ? [= <-]. apply (v_begun _ _ Hi). rewrite M. reflexivity.
      + intros ? ? ? [K|K]; discriminate K.
      + intros ? ? [K|K]; [discriminate K|]. injection K as <- <-. apply (v_text _ _ Hi h). left. exact M.
    - (* WritePanics *)
      cbn [MsgConcModel.step] in E. destruct (mcalls s h) as [| | | | |c b| |] eqn:M; try discriminate E. destruct (toWriter c); [|discriminate E]. injection E as <-.
      apply inv_move; try exact Hi; try (apply begun_same; discriminate); try discriminate; try (right; reflexivity); intros; intuition discriminate.
    - (* PutBack *)
      cbn [MsgConcModel.step] in E. destruct (mcalls s h) as [| | | | | |c b|] eqn:M; try discriminate E. injection E as <-.
      assert (Y : inv (evs ++ [PutBack h]) (mkState (mcache s) (marrays s) (mpool s) (set (mcalls s) h (MOver (Some b))))).
      { apply inv_move; try exact Hi; try (apply begun_same; discriminate); try discriminate; try (right; reflexivity); intros; intuition discriminate. }
      assert (Hb : holds (mcalls s h) = Some (fst b)) by (rewrite M; reflexivity).
      pose proof (v_lt _ _ Hi _ _ Hb) as Lb. pose proof (v_free _ _ Hi _ _ Hb) as Fb. pose proof (v_once _ _ Hi) as On.
      destruct Y as [V1 V2 V3 V4 V5 V6 V7 V8 V9 V10]. constructor; cbn [mcache marrays mpool mcalls] in *; auto.
      + intros x [<-|K]; [exact Lb|exact (V2 x K)].
      + constructor; [exact Fb|exact V4].
      + intros v x K [Q|I]; [|exact (V5 v x K I)]. destruct (set_cases (mcalls s) h (MOver (Some b)) v) as [[-> Q']|[N Q']]; rewrite Q' in K; [discriminate K|].
        apply N. apply (On v h x K). now rewrite <- Q.
    - (* Returned *)
      cbn [MsgConcModel.step] in E. destruct (mcalls s h) as [| | | | |c b| |] eqn:M; try discriminate E. destruct (_ && _); [|discriminate E]. injection E as <-.
      apply inv_move; try exact Hi; try (apply begun_same; discriminate); try discriminate; try (right; reflexivity); intros; intuition discriminate.
    - (* Panicked *)
      assert (X : s' = mkState (mcache s) (marrays s) (mpool s) (set (mcalls s) h (MOver None))).
      { cbn [MsgConcModel.step] in E. destruct (mcalls s h) as [| |c a| |c a f| | |]; try discriminate E; [destruct (compile (cformat c) (ckv c))|destruct (Format f [] (ckv c))]; try discriminate E; injection E as <-; reflexivity. }
      subst s'. apply inv_move; try exact Hi; try (apply begun_same; discriminate); try discriminate; try (right; reflexivity); intros; intuition discriminate.
    - (* Late *)
      cbn [MsgConcModel.step] in E. destruct (mcalls s h) as [| | | | | | |[b|]]; try discriminate E. destruct (PoolModel.bytes_eqb _ _); [|discriminate E]. injection E as <-.
      apply inv_same; [exact Hi|discriminate].
  Qed.
  Lemma inv_run : forall evs s, run init evs = Some s -> inv evs s.
  Proof.
    induction evs as [|e evs IH] using rev_ind; intros s R; [injection R as <-; exact inv_init|]. rewrite run_snoc in R. destruct (run init evs) as [s1|] eqn:R1; [|discriminate R].
    exact (inv_step _ _ _ _ (IH _ eq_refl) R).
  Qed.

  (** A call with a formatter that was made for a call is a call after that one *)
  Lemma made_as_if : forall evs h c f, begun evs h = Some c -> made evs (cformat c) f ->
    as_if evs h (match Format f [] (ckv c) with Some t => Returns t | None => Panics end).
  Proof.
    intros evs h c f B (kv & src & U & C). exists c, kv. split; [exact B|]. split; [exact U|]. cbn [MsgfmtTopProofs.cache_after]. unfold MsgfmtModel.Sprintf at 2. unfold FormatterOf at 1. cbn [load].
    rewrite C. cbn [snd]. unfold MsgfmtModel.Sprintf, FormatterOf. cbn [load]. unfold MsgfmtModel.bytes_eqb. destruct (list_eq_dec Z.eq_dec (cformat c) (cformat c)); [reflexivity|contradiction].
  Qed.
  Lemma own_panic : forall evs h c, begun evs h = Some c -> compile (cformat c) (ckv c) = ParseModel.Panic -> as_if evs h Panics.
  Proof.
    intros evs h c B C. exists c, (ckv c). split; [exact B|]. split; [exists h, c; auto|]. cbn [MsgfmtTopProofs.cache_after]. unfold MsgfmtModel.Sprintf, FormatterOf. cbn [load]. rewrite C. reflexivity.
  Qed.

  (** The bytes of a call that has formatted do not change *)
  Lemma steady_step : forall evs s e s' h c b, inv evs s -> step s e = Some s' -> mcalls s h = MFormatted c b -> mcalls s' h = MFormatted c b -> content (marrays s') b = content (marrays s) b.
  Proof.
    intros evs s e s' h c b Hi E M M'. assert (Hb : holds (mcalls s h) = Some (fst b)) by (rewrite M; reflexivity). pose proof (v_lt _ _ Hi _ _ Hb) as Lb.
    destruct e as [v x i|i|v|v|v|v cap|v rec|v|v|v|v rec|v|v rec]; cbn [MsgConcModel.step] in E;
      try (repeat match type of E with match ?y with _ => _ end = Some _ => destruct y; try discriminate E | (if ?y then _ else _) = Some _ => destruct y; try discriminate E end; injection E as <-; reflexivity).
    - destruct i as [i|]; destruct (mcalls s v); try discriminate E; [destruct (toWriter x); [|discriminate E]; destruct (nth_error (mpool s) i) as [[a k]|]; [|discriminate E]; injection E as <-; reflexivity|].
      injection E as <-. cbn [marrays]. now apply content_app.
    - destruct (mcalls s v) as [| | | |x a f| | |] eqn:Mv; try discriminate E. destruct (Format f [] (ckv x)) as [text|]; [|discriminate E].
      destruct (appendTo (marrays s) a text cap) as [arrs b'] eqn:Ap. injection E as <-. cbn [marrays]. unfold appendTo in Ap.
      destruct (_ <=? _)%nat; injection Ap as <- <-; [|now apply content_app]. apply content_put. intro Q. assert (v = h) by (apply (v_once _ _ Hi v h (fst b)); [rewrite Mv; cbn [holds]; now rewrite Q|exact Hb]). congruence.
  Qed.
  (** The steps of a call *)
  Inductive trans (s s' : state) : mpc -> mpc -> Prop :=
  | t_begin c a : trans s s' MFresh (MGot c a)
  | t_hit c a f : load (mcache s) (cformat c) = Some f -> trans s s' (MGot c a) (MHas c a f)
  | t_miss c a : load (mcache s) (cformat c) = None -> trans s s' (MGot c a) (MMissed c a)
  | t_comp c a f : trans s s' (MMissed c a) (MCompiled c a f)
  | t_store c a f : load (mcache s') (cformat c) = Some f -> trans s s' (MCompiled c a f) (MHas c a f)
  | t_fmt c a f b : trans s s' (MHas c a f) (MFormatted c b)
  | t_wrote c b : trans s s' (MFormatted c b) (MWrote c b)
  | t_over p b : trans s s' p (MOver b).
  Lemma load_here : forall c f m, load ((c, f) :: m) c = Some f.
  Proof. intros c f m. cbn [load]. unfold MsgfmtModel.bytes_eqb. destruct (list_eq_dec Z.eq_dec c c); [reflexivity|contradiction]. Qed.
  Lemma step_pc : forall s e s', step s e = Some s' -> forall v, mcalls s' v = mcalls s v \/ trans s s' (mcalls s v) (mcalls s' v).
  Proof.
    intros s e s' E v.
    assert (X : forall h p m arr pl, s' = mkState m arr pl (set (mcalls s) h p) -> trans s s' (mcalls s h) p -> mcalls s' v = mcalls s v \/ trans s s' (mcalls s v) (mcalls s' v)).
    { intros h p m arr pl Es T. assert (Em : mcalls s' = set (mcalls s) h p) by (rewrite Es; reflexivity). rewrite Em. destruct (set_cases (mcalls s) h p v) as [[-> Q]|[N Q]]; rewrite Q; auto. }
    destruct e as [h y i|i|h|h|h|h cap|h rec|h|h|h|h rec|h|h rec]; cbn [MsgConcModel.step] in E.
    - destruct i as [i|]; destruct (mcalls s h) eqn:M; try discriminate E.
      + destruct (toWriter y); [|discriminate E]. destruct (nth_error (mpool s) i) as [[a k]|]; [|discriminate E]. injection E as E. apply (X _ _ _ _ _ (eq_sym E)). rewrite M. constructor.
      + injection E as E. apply (X _ _ _ _ _ (eq_sym E)). rewrite M. constructor.
    - injection E as <-. left. reflexivity.
    - destruct (mcalls s h) as [|c a| | | | | |] eqn:M; try discriminate E. destruct (load (mcache s) (cformat c)) eqn:L; injection E as E; apply (X _ _ _ _ _ (eq_sym E)); rewrite M; now constructor.
    - destruct (mcalls s h) as [| |c a| | | | |] eqn:M; try discriminate E. destruct (compile (cformat c) (ckv c)); try discriminate E. injection E as E. apply (X _ _ _ _ _ (eq_sym E)). rewrite M. constructor.
    - destruct (mcalls s h) as [| | |c a f| | | |] eqn:M; try discriminate E. injection E as E. apply (X _ _ _ _ _ (eq_sym E)). rewrite M. constructor. rewrite <- E. cbn [mcache]. apply load_here.
    - destruct (mcalls s h) as [| | | |c a f| | |] eqn:M; try discriminate E. destruct (Format f [] (ckv c)) as [t|]; [|discriminate E]. destruct (appendTo (marrays s) a t cap). injection E as E.
      apply (X _ _ _ _ _ (eq_sym E)). rewrite M. constructor.
    - destruct (mcalls s h); try discriminate E. destruct (_ && _); [|discriminate E]. injection E as <-. left. reflexivity.
    - destruct (mcalls s h) as [| | | | |c b| |] eqn:M; try discriminate E. destruct (toWriter c); [|discriminate E]. injection E as E. apply (X _ _ _ _ _ (eq_sym E)). rewrite M. constructor.
    - destruct (mcalls s h) as [| | | | |c b| |] eqn:M; try discriminate E. destruct (toWriter c); [|discriminate E]. injection E as E. apply (X _ _ _ _ _ (eq_sym E)). constructor.
    - destruct (mcalls s h) as [| | | | | |c b|] eqn:M; try discriminate E. injection E as E. apply (X _ _ _ _ _ (eq_sym E)). constructor.
    - destruct (mcalls s h) as [| | | | |c b| |] eqn:M; try discriminate E. destruct (_ && _); [|discriminate E]. injection E as E. apply (X _ _ _ _ _ (eq_sym E)). constructor.
    - destruct (mcalls s h) as [| |c a| |c a f| | |] eqn:M; try discriminate E; [destruct (compile (cformat c) (ckv c))|destruct (Format f [] (ckv c))]; try discriminate E; injection E as E; apply (X _ _ _ _ _ (eq_sym E)); constructor.
    - destruct (mcalls s h) as [| | | | | | |[b|]]; try discriminate E. destruct (PoolModel.bytes_eqb _ _); [|discriminate E]. injection E as <-. left. reflexivity.
  Qed.
  (** The cache only grows *)
  Lemma cache_up : forall s e s' t, step s e = Some s' -> load (mcache s) t <> None -> load (mcache s') t <> None.
  Proof.
    intros s e s' t E L. assert (X : mcache s' = mcache s \/ exists f x, mcache s' = (f, x) :: mcache s).
    { destruct e as [h y i|i|h|h|h|h cap|h rec|h|h|h|h rec|h|h rec]; cbn [MsgConcModel.step] in E; [destruct i as [i|]|..];
      try (destruct (mcalls s h); try discriminate E);
      repeat (match type of E with match ?y with _ => _ end = Some _ => destruct y; try discriminate E | (if ?y then _ else _) = Some _ => destruct y; try discriminate E end);
      injection E as <-; cbn [mcache]; eauto. }
    destruct X as [-> |(f & x & ->)]; [exact L|]. cbn [load]. destruct (MsgfmtModel.bytes_eqb _ _); [discriminate|exact L].
  Qed.
  Definition has_formatter (p : mpc) : option call := match p with MHas c _ _ | MFormatted c _ | MWrote c _ => Some c | _ => None end.
  Lemma cached : forall evs s h c, run init evs = Some s -> has_formatter (mcalls s h) = Some c -> load (mcache s) (cformat c) <> None.
  Proof.
    induction evs as [|e evs IH] using rev_ind; intros s h c R P; [injection R as <-; discriminate P|]. rewrite run_snoc in R. destruct (run init evs) as [s1|]; [|discriminate R].
    destruct (step_pc _ _ _ R h) as [Q|T]; [rewrite Q in P; exact (cache_up _ _ _ _ R (IH s1 h c eq_refl P))|].
    assert (K : has_formatter (mcalls s1 h) = Some c \/ (exists f, load (mcache s) (cformat c) = Some f) \/ (exists f, load (mcache s1) (cformat c) = Some f)).
    { destruct T as [x a|x a f L|x a L|x a f|x a f L|x a f b|x b|p b]; cbn [has_formatter] in *; try discriminate P; injection P as ->; eauto. }
    destruct K as [K|[[f K]|[f K]]]; [exact (cache_up _ _ _ _ R (IH s1 h c eq_refl K))|rewrite K; discriminate|apply (cache_up _ _ _ _ R); rewrite K; discriminate].
  Qed.
  Lemma no_miss : forall t l s s' v, run s l = Some s' -> load (mcache s) t <> None -> (forall c a, mcalls s v = MMissed c a -> cformat c <> t) -> forall c a, mcalls s' v = MMissed c a -> cformat c <> t.
  Proof.
    intros t. induction l as [|e l IH]; intros s s' v R L N; [injection R as <-; exact N|]. cbn [MsgConcModel.run] in R. destruct (step s e) as [s1|] eqn:E; [|discriminate R].
    apply (IH s1 s' v R (cache_up _ _ _ _ E L)). intros c a M. destruct (step_pc _ _ _ E v) as [Q|T]; [rewrite Q in M; exact (N c a M)|].
    rewrite M in T. remember (MMissed c a) as q eqn:Eq. remember (mcalls s v) as p eqn:Ep. destruct T; try discriminate Eq. injection Eq as -> ->. intro K. rewrite K in H. contradiction.
  Qed.
  (** Where a call can be after a step of any of them *)
  Definition past (p : mpc) : Prop := match p with MWrote _ _ | MOver _ => True | _ => False end.
  Lemma moves : forall s e s' h, step s e = Some s' -> past (mcalls s h) \/ (exists c b, mcalls s h = MFormatted c b) -> mcalls s' h = mcalls s h \/ past (mcalls s' h).
  Proof.
    intros s e s' h E P.
    assert (X : forall v p, (mcalls s v = mcalls s h -> past (mcalls s v) \/ (exists c b, mcalls s v = MFormatted c b) -> past p) -> set (mcalls s) v p h = mcalls s h \/ past (set (mcalls s) v p h)).
    { intros v p K. destruct (set_cases (mcalls s) v p h) as [[-> Q]|[N Q]]; rewrite Q; auto. }
    destruct e as [v y i|i|v|v|v|v cap|v rec|v|v|v|v rec|v|v rec]; cbn [MsgConcModel.step] in E; [destruct i as [i|]|..];
      try (destruct (mcalls s v) eqn:Mv; try discriminate E);
      repeat (match type of E with match ?y with _ => _ end = Some _ => destruct y; try discriminate E | (if ?y then _ else _) = Some _ => destruct y; try discriminate E end);
      injection E as <-; cbn [mcalls]; auto; apply X; rewrite Mv; intros _ Q; try exact Logic.I; destruct Q as [Q|(? & ? & Q)]; try discriminate Q; destruct Q.
  Qed.
  Lemma past_run : forall l s s' h, run s l = Some s' -> past (mcalls s h) -> past (mcalls s' h).
  Proof.
    induction l as [|e l IH]; intros s s' h R P; [injection R as <-; exact P|]. cbn [MsgConcModel.run] in R. destruct (step s e) as [s1|] eqn:E; [|discriminate R].
    apply (IH s1 s' h R). destruct (moves _ _ _ h E (or_introl P)) as [Q|Q]; [rewrite Q; exact P|exact Q].
  Qed.
  Lemma steady_run : forall l evs s s' h c b c' b', inv evs s -> run s l = Some s' -> mcalls s h = MFormatted c b -> mcalls s' h = MFormatted c' b' -> b' = b /\ content (marrays s') b = content (marrays s) b.
  Proof.
    induction l as [|e l IH]; intros evs s s' h c b c' b' Hi R M M'; [injection R as <-; rewrite M in M'; injection M' as <- <-; auto|].
    cbn [MsgConcModel.run] in R. destruct (step s e) as [s1|] eqn:E; [|discriminate R]. destruct (moves _ _ _ h E) as [Q|Q]; [right; eauto| |].
    - rewrite M in Q. destruct (IH _ _ _ h c b c' b' (inv_step _ _ _ _ Hi E) R Q M') as [K1 K2]. split; [exact K1|]. rewrite K2. exact (steady_step _ _ _ _ _ _ _ Hi E M Q).
    - pose proof (past_run _ _ _ _ R Q) as P. rewrite M' in P. destruct P.
  Qed.
End Proofs.
