(** C137: msgfmt in several goroutines. *)
From Verif Require Import Base PoolModel PoolProofs MsgfmtModel MsgfmtSpec MsgfmtTopProofs MsgConcModel MsgConcSpec MsgConcProofs.
From Verif Require ParseModel MsgfmtProps.

Section Claims.
  Variable encoderOf : Z -> option (value -> option bytes).
  Variable timeString : Z -> bytes.
  Variable timeFormat : bytes -> Z -> bytes.
  Variable trimSpace : bytes -> bytes.
  Variable argsText : list value -> bytes.
  Variable panicText : bytes.
  Variable fuel : nat.
  Notation step := (MsgConcModel.step encoderOf timeString timeFormat trimSpace argsText panicText fuel).
  Notation run := (MsgConcModel.run encoderOf timeString timeFormat trimSpace argsText panicText fuel).
  Notation compile := (MsgfmtModel.compile encoderOf trimSpace panicText fuel).
  Notation Format := (MsgfmtModel.Format timeString timeFormat argsText).
  Notation Sprintf := (MsgfmtModel.Sprintf encoderOf timeString timeFormat trimSpace argsText panicText fuel).
  Notation as_if := (MsgConcSpec.as_if encoderOf timeString timeFormat trimSpace argsText panicText fuel).
  Notation inv_run := (MsgConcProofs.inv_run encoderOf timeString timeFormat trimSpace argsText panicText fuel).
  Notation run_app := (MsgConcProofs.run_app encoderOf timeString timeFormat trimSpace argsText panicText fuel).

  Lemma split_run : forall evs e more s, run init (evs ++ e :: more) = Some s -> exists s1 s2, run init evs = Some s1 /\ step s1 e = Some s2 /\ run s2 more = Some s.
  Proof.
    intros evs e more s R. rewrite run_app in R. destruct (run init evs) as [s1|]; [|discriminate R]. cbn [MsgConcModel.run] in R. destruct (step s1 e) as [s2|] eqn:E; [|discriminate R].
    exists s1, s2. auto.
  Qed.
  (** Whatever the goroutines do in between: what a writer reads during Write, and what Sprintf returns, is what Sprintf returns in a process in which at most one call was
      made before, one with the same format; if a call panics, so does that one. *)
  Theorem C137_calls : forall evs e more s, run init (evs ++ e :: more) = Some s ->
    match e with
    | Reads h rec | Returned h rec => as_if evs h (Returns rec)
    | Panicked h => as_if evs h Panics
    | _ => True
    end.
  Proof.
    intros evs e more s R. destruct (split_run _ _ _ _ R) as (s1 & s2 & R1 & E & _). pose proof (inv_run _ _ R1) as Hi. destruct e as [| | | | | |h rec| | | |h rec|h|]; try exact Logic.I.
    - cbn [MsgConcModel.step] in E. destruct (mcalls s1 h) as [| | | | |c b| |] eqn:M; try discriminate E. destruct (toWriter c); [|discriminate E]. cbn [andb] in E.
      destruct (PoolModel.bytes_eqb _ _) eqn:Q; [|discriminate E]. apply PoolProofs.bytes_eqb_true in Q. destruct (v_text _ _ _ _ _ _ _ _ _ Hi h c b (or_introl M)) as (f & F1 & F2).
      assert (B : begun evs h = Some c) by (apply (v_begun _ _ _ _ _ _ _ _ _ Hi); rewrite M; reflexivity).
      pose proof (made_as_if encoderOf timeString timeFormat trimSpace argsText panicText fuel evs h c f B F1) as A. rewrite F2, Q in A. exact A.
    - cbn [MsgConcModel.step] in E. destruct (mcalls s1 h) as [| | | | |c b| |] eqn:M; try discriminate E. destruct (toWriter c); [discriminate E|]. cbn [andb negb] in E.
      destruct (PoolModel.bytes_eqb _ _) eqn:Q; [|discriminate E]. apply PoolProofs.bytes_eqb_true in Q. destruct (v_text _ _ _ _ _ _ _ _ _ Hi h c b (or_introl M)) as (f & F1 & F2).
      assert (B : begun evs h = Some c) by (apply (v_begun _ _ _ _ _ _ _ _ _ Hi); rewrite M; reflexivity).
      pose proof (made_as_if encoderOf timeString timeFormat trimSpace argsText panicText fuel evs h c f B F1) as A. rewrite F2, Q in A. exact A.
    - cbn [MsgConcModel.step] in E. destruct (mcalls s1 h) as [| |c a| |c a f| | |] eqn:M; try discriminate E.
      + assert (B : begun evs h = Some c) by (apply (v_begun _ _ _ _ _ _ _ _ _ Hi); rewrite M; reflexivity). destruct (compile (cformat c) (ckv c)) eqn:C; try discriminate E.
        exact (own_panic encoderOf timeString timeFormat trimSpace argsText panicText fuel evs h c B C).
      + assert (B : begun evs h = Some c) by (apply (v_begun _ _ _ _ _ _ _ _ _ Hi); rewrite M; reflexivity). destruct (Format f [] (ckv c)) eqn:F; try discriminate E.
        pose proof (made_as_if encoderOf timeString timeFormat trimSpace argsText panicText fuel evs h c f B (v_has _ _ _ _ _ _ _ _ _ Hi h c a f (or_intror M))) as A. rewrite F in A. exact A.
  Qed.
  (** So if all calls with a format have the keys at the same places and values of the same types, a call with it does what it does alone. *)
  Theorem C137_same_shape_partial : forall evs e more s h c, run init (evs ++ e :: more) = Some s -> begun evs h = Some c -> (forall kv, used evs (cformat c) kv -> same_shape kv (ckv c)) ->
    let alone := fst (Sprintf [] (cformat c) (ckv c)) in
    match e with
    | Reads v rec | Returned v rec => v = h -> alone = Returns rec
    | Panicked v => v = h -> alone = Panics
    | _ => True
    end.
  Proof.
    intros evs e more s h c R B Sh alone. pose proof (C137_calls _ _ _ _ R) as A.
    assert (X : forall o, as_if evs h o -> alone = o).
    { intros o (c' & kv & B' & U & <-). rewrite B in B'. injection B' as <-. symmetry. apply MsgfmtProps.C21_same_shape_partial. intros kv' [K|[]]. injection K as <-. exact (Sh kv U). }
    destruct e; try exact Logic.I; intros ->; apply X; exact A.
  Qed.
  (** A writer that reads again during the same Write reads the same bytes. *)
  Theorem C137_steady : forall a b more s h r1 r2, run init (a ++ Reads h r1 :: b ++ Reads h r2 :: more) = Some s -> r1 = r2.
  Proof.
    intros a b more s h r1 r2 R. destruct (split_run _ _ _ _ R) as (s1 & s2 & R1 & E & R2). pose proof (inv_run _ _ R1) as Hi.
    cbn [MsgConcModel.step] in E. destruct (mcalls s1 h) as [| | | | |c x| |] eqn:M; try discriminate E. destruct (_ && PoolModel.bytes_eqb _ _) eqn:Q; [|discriminate E]. injection E as <-.
    apply andb_true_iff in Q. destruct Q as [_ Q]. apply PoolProofs.bytes_eqb_true in Q. subst r1.
    rewrite run_app in R2. destruct (run s1 b) as [s3|] eqn:R3; [|discriminate R2]. cbn [MsgConcModel.run] in R2. destruct (step s3 (Reads h r2)) as [s4|] eqn:E4; [|discriminate R2].
    cbn [MsgConcModel.step] in E4. destruct (mcalls s3 h) as [| | | | |c' x'| |] eqn:M3; try discriminate E4. destruct (_ && PoolModel.bytes_eqb _ _) eqn:Q; [|discriminate E4]. clear E4 R2.
    apply andb_true_iff in Q. destruct Q as [_ Q]. apply PoolProofs.bytes_eqb_true in Q. subst r2.
    destruct (steady_run encoderOf timeString timeFormat trimSpace argsText panicText fuel _ _ _ _ _ _ _ _ _ Hi R3 M M3) as [-> K]. symmetry. exact K.
  Qed.
  (** Nobody waits for another call: a call that has begun, and whose format can be compiled or makes compile panic, ends with at most six steps of its own. *)
  Theorem C137_ends : forall evs s h c, run init evs = Some s -> begun evs h = Some c -> compile (cformat c) (ckv c) <> ParseModel.OutOfFuel ->
    exists l s' b, (List.length l <= 6)%nat /\ Forall (of_call h) l /\ run s l = Some s' /\ mcalls s' h = MOver b.
  Proof.
    intros evs s h c R B C. pose proof (inv_run _ _ R) as Hi.
    (* from the end to the beginning *)
    assert (P6 : forall s c b, mcalls s h = MFormatted c b -> exists l s' b', (List.length l <= 2)%nat /\ Forall (of_call h) l /\ run s l = Some s' /\ mcalls s' h = MOver b').
    { clear. intros s c b M. destruct (toWriter c) eqn:T.
      - exists [WriteReturns h; PutBack h]. do 2 eexists. split; [cbn; lia|]. split; [repeat constructor|]. cbn [MsgConcModel.run MsgConcModel.step]. rewrite M, T. cbn [mcalls]. rewrite set_same.
        split; [reflexivity|]. cbn [mcalls]. apply set_same.
      - exists [Returned h (content (marrays s) b)]. do 2 eexists. split; [cbn; lia|]. split; [repeat constructor|]. cbn [MsgConcModel.run MsgConcModel.step]. rewrite M, T, PoolProofs.bytes_eqb_refl.
        split; [reflexivity|]. cbn [mcalls]. apply set_same. }
    assert (P5 : forall s c a f, mcalls s h = MHas c a f -> exists l s' b', (List.length l <= 3)%nat /\ Forall (of_call h) l /\ run s l = Some s' /\ mcalls s' h = MOver b').
    { clear - P6. intros s c a f M. destruct (Format f [] (ckv c)) as [t|] eqn:F.
      - destruct (appendTo (marrays s) a t 0) as [arrs b] eqn:A.
        destruct (P6 (mkState (mcache s) arrs (mpool s) (set (mcalls s) h (MFormatted c b))) c b (set_same _ _ _)) as (l & s' & b' & L & O & Q & E).
        exists (Fmt h 0 :: l), s', b'. split; [cbn; lia|]. split; [constructor; [reflexivity|exact O]|]. cbn [MsgConcModel.run MsgConcModel.step]. rewrite M, F, A. auto.
      - exists [Panicked h]. do 2 eexists. split; [cbn; lia|]. split; [repeat constructor|]. cbn [MsgConcModel.run MsgConcModel.step]. rewrite M, F. split; [reflexivity|]. cbn [mcalls]. apply set_same. }
    assert (P4 : forall s c a f, mcalls s h = MCompiled c a f -> exists l s' b', (List.length l <= 4)%nat /\ Forall (of_call h) l /\ run s l = Some s' /\ mcalls s' h = MOver b').
    { clear - P5. intros s c a f M.
      destruct (P5 (mkState ((cformat c, f) :: mcache s) (marrays s) (mpool s) (set (mcalls s) h (MHas c a f))) c a f (set_same _ _ _)) as (l & s' & b' & L & O & Q & E).
      exists (Store h :: l), s', b'. split; [cbn; lia|]. split; [constructor; [reflexivity|exact O]|]. cbn [MsgConcModel.run MsgConcModel.step]. rewrite M. auto. }
    assert (P3 : forall s a, mcalls s h = MMissed c a -> exists l s' b', (List.length l <= 5)%nat /\ Forall (of_call h) l /\ run s l = Some s' /\ mcalls s' h = MOver b').
    { clear - P4 C. intros s a M. destruct (compile (cformat c) (ckv c)) as [f src| |] eqn:K; [| |contradiction].
      - destruct (P4 (mkState (mcache s) (marrays s) (mpool s) (set (mcalls s) h (MCompiled c a f))) c a f (set_same _ _ _)) as (l & s' & b' & L & O & Q & E).
        exists (Compile h :: l), s', b'. split; [cbn; lia|]. split; [constructor; [reflexivity|exact O]|]. cbn [MsgConcModel.run MsgConcModel.step]. rewrite M, K. auto.
      - exists [Panicked h]. do 2 eexists. split; [cbn; lia|]. split; [repeat constructor|]. cbn [MsgConcModel.run MsgConcModel.step]. rewrite M, K. split; [reflexivity|]. cbn [mcalls]. apply set_same. }
    assert (W : forall n k, (n <= k)%nat -> (exists l s' b', (List.length l <= n)%nat /\ Forall (of_call h) l /\ run s l = Some s' /\ mcalls s' h = MOver b') ->
      exists l s' b', (List.length l <= k)%nat /\ Forall (of_call h) l /\ run s l = Some s' /\ mcalls s' h = MOver b').
    { intros n k Le (l & s' & b' & L & X). exists l, s', b'. split; [lia|exact X]. }
    destruct (mcalls s h) as [|c' a|c' a|c' a f|c' a f|c' b|c' b|b] eqn:M.
    - rewrite (v_fresh _ _ _ _ _ _ _ _ _ Hi h M) in B. discriminate B.
    - assert (Ec : c' = c). { assert (X : begun evs h = Some c') by (apply (v_begun _ _ _ _ _ _ _ _ _ Hi); rewrite M; reflexivity). rewrite B in X. now injection X. } subst c'.
      destruct (load (mcache s) (cformat c)) as [f|] eqn:L.
      + destruct (P5 (mkState (mcache s) (marrays s) (mpool s) (set (mcalls s) h (MHas c a f))) c a f (set_same _ _ _)) as (l & s' & b' & Le & O & Q & E).
        exists (Load h :: l), s', b'. split; [cbn; lia|]. split; [constructor; [reflexivity|exact O]|]. cbn [MsgConcModel.run MsgConcModel.step]. rewrite M, L. auto.
      + destruct (P3 (mkState (mcache s) (marrays s) (mpool s) (set (mcalls s) h (MMissed c a))) a (set_same _ _ _)) as (l & s' & b' & Le & O & Q & E).
        exists (Load h :: l), s', b'. split; [cbn; lia|]. split; [constructor; [reflexivity|exact O]|]. cbn [MsgConcModel.run MsgConcModel.step]. rewrite M, L. auto.
    - assert (Ec : c' = c). { assert (X : begun evs h = Some c') by (apply (v_begun _ _ _ _ _ _ _ _ _ Hi); rewrite M; reflexivity). rewrite B in X. now injection X. } subst c'.
      apply (W 5%nat); [lia|]. exact (P3 s a M).
    - apply (W 4%nat); [lia|]. exact (P4 s _ _ _ M).
    - apply (W 3%nat); [lia|]. exact (P5 s _ _ _ M).
    - apply (W 2%nat); [lia|]. exact (P6 s _ _ M).
    - exists [PutBack h]. do 2 eexists. split; [cbn; lia|]. split; [repeat constructor|]. cbn [MsgConcModel.run MsgConcModel.step]. rewrite M. split; [reflexivity|]. cbn [mcalls]. apply set_same.
    - exists [], s, b. split; [cbn; lia|]. split; [constructor|]. split; [reflexivity|exact M].
  Qed.
  (** When some call has got as far as its text, no call that begins later with the same format compiles it again. *)
  Theorem C137_compiled : forall evs s h c more s', run init evs = Some s -> begun evs h = Some c -> (exists b, mcalls s h = MFormatted c b \/ mcalls s h = MWrote c b) ->
    run s more = Some s' -> forall v c' a b, begun evs v = None -> more = a ++ Compile v :: b -> begun a v = Some c' -> cformat c' <> cformat c.
  Proof.
    intros evs s h c more s' R B [b0 M] R' v c' a b Nv -> Bv Eq.
    assert (L : load (mcache s) (cformat c) <> None) by (apply (cached encoderOf timeString timeFormat trimSpace argsText panicText fuel evs s h c R); destruct M as [-> | ->]; reflexivity).
    rewrite run_app in R'. destruct (run s a) as [s1|] eqn:R1; [|discriminate R']. cbn [MsgConcModel.run] in R'. destruct (step s1 (Compile v)) as [s2|] eqn:E; [|discriminate R'].
    pose proof (inv_run _ _ R) as Hi.
    assert (N0 : forall c' a, mcalls s v = MMissed c' a -> cformat c' <> cformat c).
    { intros x y Mv. assert (K : begun evs v = Some x) by (apply (v_begun _ _ _ _ _ _ _ _ _ Hi); rewrite Mv; reflexivity). congruence. }
    pose proof (no_miss encoderOf timeString timeFormat trimSpace argsText panicText fuel _ a s s1 v R1 L N0) as N1. cbn [MsgConcModel.step] in E. destruct (mcalls s1 v) as [| |x xa| | | | |] eqn:Mv; try discriminate E.
    assert (R2 : run init (evs ++ a) = Some s1) by (rewrite run_app, R; exact R1). pose proof (inv_run _ _ R2) as Hi2.
    assert (K : begun (evs ++ a) v = Some x) by (apply (v_begun _ _ _ _ _ _ _ _ _ Hi2); rewrite Mv; reflexivity). rewrite begun_app, Nv, Bv in K. injection K as ->. exact (N1 x xa eq_refl Eq).
  Qed.
End Claims.

(** * Examples *)
Import MsgfmtProps(ex_enc, ex_time, ex_format, ex_trim, ex_args).
Notation exrun := (MsgConcModel.run ex_enc ex_time ex_format ex_trim ex_args [] 40).
Notation exSprintf := (MsgfmtModel.Sprintf ex_enc ex_time ex_format ex_trim ex_args [] 40).
Definition ex_to (w : bool) (v : string) : call := mkCall w (bs "<{a}>") [VStr (bs "a"); VStr (bs v)].
(** Two calls compile the same format at the same time; one ends within Write of the other, and its buffer is used by a third *)
Definition ex_two : list event :=
  [Begin 0 (ex_to true "one") None; Begin 1 (ex_to true "three") None; Load 0; Load 1; Compile 0; Compile 1; Store 1; Fmt 1 7; Store 0; Reads 1 (bs "<three>"); Fmt 0 0; Reads 0 (bs "<one>"); WriteReturns 0; PutBack 0;
   Begin 2 (ex_to true "2") (Some 0%nat); Load 2; Fmt 2 0; Reads 2 (bs "<2>")].
Definition ex_rest : list event := [WriteReturns 1; PutBack 1; Begin 3 (ex_to false "four") None; Load 3; Fmt 3 0; Returned 3 (bs "<four>"); WritePanics 2].
Example C137_calls_example : exists s, exrun init (ex_two ++ Reads 1 (bs "<three>") :: ex_rest) = Some s /\ begun ex_two 1 = Some (ex_to true "three") /\ used ex_two (bs "<{a}>") (ckv (ex_to true "one")) /\
  fst (exSprintf [] (bs "<{a}>") (ckv (ex_to true "three"))) = Returns (bs "<three>").
Proof. eexists. split; [vm_compute; reflexivity|]. split; [reflexivity|]. split; [exists 0%nat, (ex_to true "one"); repeat split|vm_compute; reflexivity]. Qed.
Example C137_same_shape_example : forall kv, used ex_two (bs "<{a}>") kv -> same_shape kv (ckv (ex_to true "three")).
Proof.
  intros kv (h & c & B & _ & <-). unfold ex_two in B. cbn [begun] in B.
  repeat match type of B with (if ?x then _ else _) = Some _ => destruct x; [injection B as <-; repeat split|] end. discriminate B.
Qed.
Example C137_steady_example : exists s, exrun init (firstn 9 ex_two ++ Reads 1 (bs "<three>") :: skipn 10 ex_two ++ Reads 1 (bs "<three>") :: ex_rest) = Some s.
Proof. eexists. vm_compute. reflexivity. Qed.
Example C137_ends_example : exists s, exrun init (firstn 5 ex_two) = Some s /\ begun (firstn 5 ex_two) 1 = Some (ex_to true "three") /\ mcalls s 1 = MMissed (ex_to true "three") 1 /\
  compile ex_enc ex_trim [] 40 (bs "<{a}>") (ckv (ex_to true "three")) <> ParseModel.OutOfFuel.
Proof. eexists. split; [vm_compute; reflexivity|]. split; [reflexivity|]. split; [vm_compute; reflexivity|vm_compute; discriminate]. Qed.
Example C137_compiled_example : exists s s', exrun init (firstn 8 ex_two) = Some s /\ mcalls s 1 = MFormatted (ex_to true "three") (1%nat, 7%nat) /\
  exrun s (skipn 8 ex_two ++ [Begin 3 (mkCall false (bs "{a}") (ckv (ex_to true "x"))) None; Load 3; Compile 3]) = Some s'.
Proof. do 2 eexists. split; [vm_compute; reflexivity|]. split; vm_compute; reflexivity. Qed.

(** * What does not hold *)
(** A call does what it does alone. *)
Definition C137_full : Prop := forall encoderOf timeString timeFormat trimSpace argsText panicText fuel evs h rec more s c,
  MsgConcModel.run encoderOf timeString timeFormat trimSpace argsText panicText fuel init (evs ++ Returned h rec :: more) = Some s -> begun evs h = Some c ->
  fst (MsgfmtModel.Sprintf encoderOf timeString timeFormat trimSpace argsText panicText fuel [] (cformat c) (ckv c)) = Returns rec.
(** The keys in another order: it depends on the interleaving of two calls whether the second returns its value. *)
Definition ex_ab : call := mkCall false (bs "{a}") [VStr (bs "a"); VStr (bs "1"); VStr (bs "b"); VStr (bs "2")].
Definition ex_ba : call := mkCall false (bs "{a}") [VStr (bs "b"); VStr (bs "2"); VStr (bs "a"); VStr (bs "1")].
Definition ex_seq : list event := [Begin 0 ex_ab None; Load 0; Compile 0; Store 0; Begin 1 ex_ba None; Load 1; Fmt 1 0].
Theorem C137_race_refuted : (exists s, exrun init (ex_seq ++ [Returned 1 (bs "2")]) = Some s) /\
  (exists s, exrun init [Begin 0 ex_ab None; Load 0; Begin 1 ex_ba None; Load 1; Compile 0; Compile 1; Store 0; Store 1; Fmt 1 0; Returned 1 (bs "1"); Fmt 0 0; Returned 0 (bs "1")] = Some s) /\
  fst (exSprintf [] (cformat ex_ba) (ckv ex_ba)) = Returns (bs "1").
Proof. split; [eexists; vm_compute; reflexivity|]. split; [eexists; vm_compute; reflexivity|]. vm_compute. reflexivity. Qed.
Theorem C137_full_refuted : ~ C137_full.
Proof.
  intro F. destruct C137_race_refuted as ([s R] & _ & A). pose proof (F ex_enc ex_time ex_format ex_trim ex_args [] 40%nat ex_seq 1%nat (bs "2") [] s ex_ba R eq_refl) as B. rewrite A in B. discriminate B.
Qed.
(** Println uses one format for all values: after a string, a []byte makes it panic. *)
Theorem C137_println_refuted : let f := bs "{single_value}" ++ [10] in let k := VStr (bs "single_value") in
  exists s, exrun init [Begin 0 (mkCall true f [k; VStr (bs "x")]) None; Load 0; Compile 0; Store 0; Fmt 0 0; Reads 0 (bs "x" ++ [10]); WriteReturns 0; PutBack 0;
    Begin 1 (mkCall true f [k; VByt (bs "y")]) (Some 0%nat); Load 1; Panicked 1] = Some s /\ fst (exSprintf [] f [k; VByt (bs "y")]) = Returns (bs "y" ++ [10]).
Proof. cbv zeta. eexists. split; vm_compute; reflexivity. Qed.
(** A writer that keeps the slice finds the text of a later call in it. *)
Theorem C137_retains_refuted : exists s, exrun init [Begin 0 (ex_to true "one") None; Load 0; Compile 0; Store 0; Fmt 0 0; Reads 0 (bs "<one>"); WriteReturns 0; PutBack 0; Late 0 (bs "<one>");
  Begin 1 (ex_to true "two") (Some 0%nat); Load 1; Fmt 1 0; Late 0 (bs "<two>")] = Some s.
Proof. eexists. vm_compute. reflexivity. Qed.
Print Assumptions C137_calls.
Print Assumptions C137_same_shape_partial.
Print Assumptions C137_steady.
Print Assumptions C137_ends.
Print Assumptions C137_compiled.
Print Assumptions C137_race_refuted.
Print Assumptions C137_full_refuted.
Print Assumptions C137_println_refuted.
Print Assumptions C137_retains_refuted.
