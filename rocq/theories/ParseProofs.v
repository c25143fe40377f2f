From Verif Require Import Base DecimalSpec JsonStrSpec JsonIntModel ParseModel ParseSpec.
Open Scope Z_scope.
Open Scope list_scope.

Definition or_else (a : option err) (e : err) : option err := match a with None => Some e | _ => a end.

Lemma ReportError_err : forall e s, s_err (ReportError e s) = or_else (s_err s) e.
Proof. intros e s. unfold ReportError. destruct (s_err s) eqn:E; cbn; congruence. Qed.
Lemma ReportError_chunks : forall e s, chunks (ReportError e s) = chunks s.
Proof. intros e s. unfold ReportError. destruct (s_err s); reflexivity. Qed.
Lemma ReportError_clean : forall e s, clean s -> clean (ReportError e s).
Proof. intros e s. unfold ReportError. destruct (s_err s); auto. Qed.
Lemma ReportError_end : forall e s, end_error (ReportError e s) = end_error s.
Proof. intros e s. unfold ReportError. destruct (s_err s); auto. Qed.

Lemma Consume_spec : forall s, clean s ->
  clean (Consume s) /\ end_error (Consume s) = end_error s /\
  match tl (chunks s) with
  | [] => chunks (Consume s) = [[]] /\ s_err (Consume s) = or_else (s_err s) (end_error s)
  | t => chunks (Consume s) = t /\ s_err (Consume s) = s_err s
  end.
Proof.
  intros s H. unfold clean in H. unfold Consume. destruct s as [er [[reads fin]|] cur nxt]; cbn [s_reader s_next s_err s_current] in *.
  - destruct nxt as [|c l]; cbn.
    + destruct reads as [|[c e] reads]; cbn in *.
      * unfold ReportError. destruct er; cbn; repeat split; constructor.
      * inversion H; subst. cbn in *. subst. repeat split; auto.
    + repeat split; auto.
  - subst. unfold ReportError. cbn. destruct er; cbn; repeat split.
Qed.

(** One round of reading: what is left after the current chunk. *)
Lemma Consume_remaining : forall s, clean s -> remaining s = s_current s ++ remaining (Consume s).
Proof.
  intros s H. destruct (Consume_spec s H) as (_ & _ & C). unfold remaining.
  unfold chunks at 1. cbn [List.concat]. f_equal.
  assert (E : tl (chunks s) = s_next s ++ match s_reader s with None => [] | Some r => map fst (r_reads r) end) by reflexivity.
  rewrite <- E. destruct (tl (chunks s)) as [|c t]; destruct C as [-> _]; reflexivity.
Qed.

Lemma consumeLoop_ok : forall fuel n s, clean s -> (n <= List.length (remaining s))%nat ->
  (List.length (chunks s) < fuel)%nat ->
  exists s', consumeLoop fuel n s = Ok tt s' /\ remaining s' = skipn n (remaining s) /\ clean s' /\
    end_error s' = end_error s /\ (compact s -> compact s') /\
    (s_err s' = s_err s \/ remaining s' = [] /\ s_err s' = or_else (s_err s) (end_error s)) /\
    ((n < List.length (s_current s))%nat -> s_err s' = s_err s).
Proof.
  induction fuel as [|fuel IH]; intros n s Hc Hn Hf; [lia|]. cbn [consumeLoop].
  destruct (negb (n =? 0)%nat && (List.length (s_current s) <=? n)%nat) eqn:B.
  - apply andb_true_iff in B as [B1 B2]. apply negb_true_iff, Nat.eqb_neq in B1. apply Nat.leb_le in B2.
    pose proof (Consume_remaining s Hc) as R. destruct (Consume_spec s Hc) as (Hc' & He & C).
    assert (Hn' : (n - List.length (s_current s) <= List.length (remaining (Consume s)))%nat)
      by (rewrite R, app_length in Hn; lia).
    assert (SK : skipn n (remaining s) = skipn (n - List.length (s_current s)) (remaining (Consume s))).
    { rewrite R, skipn_app, skipn_all2 by lia. reflexivity. }
    assert (CP : compact s -> compact (Consume s)).
    { intros K p q E. destruct (tl (chunks s)) as [|c t] eqn:T; destruct C as [C _]; rewrite C in E.
      - destruct p as [|? [|]]; cbn in E; try discriminate. injection E as <-. reflexivity.
      - apply (K (s_current s :: p) q). cbn [app]. rewrite <- E, <- T. reflexivity. }
    destruct (tl (chunks s)) as [|c t] eqn:T; destruct C as [C Er].
    + assert (R0 : remaining (Consume s) = []) by (unfold remaining; rewrite C; reflexivity).
      rewrite R0 in Hn'. cbn in Hn'. replace (n - List.length (s_current s))%nat with 0%nat in * by lia.
      assert (L1 : List.length (chunks s) = 1%nat) by (unfold chunks in *; cbn [tl] in T; cbn; rewrite T; reflexivity).
      destruct fuel as [|fuel]; [lia|]. cbn [consumeLoop]. cbn [Nat.eqb negb andb].
      eexists. split; [reflexivity|].
      assert (CH : chunks (mkSource (s_err (Consume s)) (s_reader (Consume s)) (skipn 0 (s_current (Consume s))) (s_next (Consume s))) = chunks (Consume s)) by reflexivity.
      split; [unfold remaining in *; rewrite CH, SK; reflexivity|]. split; [exact Hc'|].
      split; [exact He|]. split; [intros K; exact (CP K)|]. split.
      * right. split; [unfold remaining in *; rewrite CH; exact R0|exact Er].
      * intros; lia.
    + assert (Lc : (List.length (chunks (Consume s)) < fuel)%nat).
      { rewrite C. unfold chunks in Hf, T. cbn [tl] in T. cbn [List.length] in Hf. rewrite T in Hf. cbn in *. lia. }
      destruct (IH _ _ Hc' Hn' Lc) as (s' & E & R' & C' & En & K & Ee & _).
      exists s'. split; [exact E|]. rewrite SK. split; [exact R'|]. split; [exact C'|]. split; [congruence|].
      split; [tauto|]. split; [|intros; lia]. rewrite Er, He in Ee. exact Ee.
  - eexists. split; [reflexivity|]. cbn [s_err].
    assert (Hlt : n = 0%nat \/ (n < List.length (s_current s))%nat).
    { apply andb_false_iff in B as [B|B].
      - apply negb_false_iff, Nat.eqb_eq in B. auto.
      - apply Nat.leb_gt in B. auto. }
    split.
    { unfold remaining, chunks. cbn [s_current s_next s_reader List.concat]. rewrite skipn_app.
      replace (n - List.length (s_current s))%nat with 0%nat by lia. reflexivity. }
    split; [exact Hc|]. split; [reflexivity|]. split.
    { intros K p q E. unfold chunks in E. cbn [s_current s_next s_reader] in E.
      destruct p as [|c p]; cbn [app] in E.
      - injection E as E1 E2. apply (K [] q). cbn [app]. unfold chunks. f_equal; [|exact E2].
        destruct Hlt as [->|Hlt]; [exact E1|].
        apply (f_equal (@List.length Z)) in E1. rewrite skipn_length in E1. cbn in E1. lia.
      - injection E as E1 E2. apply (K (s_current s :: p) q). unfold chunks. cbn [app]. now rewrite E2. }
    split; auto.
Qed.

Lemma consumeLoop_short : forall fuel n s, clean s -> (List.length (remaining s) < n)%nat ->
  consumeLoop fuel n s = OutOfFuel.
Proof.
  induction fuel as [|fuel IH]; intros n s Hc Hn; auto. cbn [consumeLoop].
  pose proof (Consume_remaining s Hc) as R. rewrite R, app_length in Hn.
  assert (B : negb (n =? 0)%nat && (List.length (s_current s) <=? n)%nat = true).
  { apply andb_true_iff. split; [apply negb_true_iff, Nat.eqb_neq; lia|apply Nat.leb_le; lia]. }
  rewrite B. apply IH; [apply Consume_spec; auto|lia].
Qed.

Lemma rounds_chunks : forall s, rounds s = S (List.length (chunks s)).
Proof.
  intros s. unfold rounds, chunks. cbn [List.length]. rewrite app_length. destruct (s_reader s); [rewrite map_length|cbn]; lia.
Qed.

Lemma ConsumeN_ok : forall n s, clean s -> (n <= List.length (remaining s))%nat ->
  exists s', ConsumeN n s = Ok tt s' /\ remaining s' = skipn n (remaining s) /\ clean s' /\
    end_error s' = end_error s /\ (compact s -> compact s') /\
    (s_err s' = s_err s \/ remaining s' = [] /\ s_err s' = or_else (s_err s) (end_error s)) /\
    ((n < List.length (s_current s))%nat -> s_err s' = s_err s).
Proof. intros n s Hc Hn. apply consumeLoop_ok; auto. rewrite rounds_chunks. lia. Qed.

(** * PeekN *)
Lemma peekNext_spec : forall n l peeked, 
  match peekNext n peeked l with
  | inl p => (n <= List.length (peeked ++ List.concat l))%nat /\ p = firstn n (peeked ++ List.concat l)
  | inr p => p = peeked ++ List.concat l /\ (l <> [] -> (List.length p < n)%nat)
  end.
Proof.
  induction l as [|c l IH]; intros peeked; cbn [peekNext List.concat].
  - rewrite app_nil_r. split; auto. congruence.
  - destruct (Nat.leb_spec n (List.length (peeked ++ c))) as [L|L].
    + rewrite app_assoc, app_length. split; [lia|]. rewrite (firstn_app n (peeked ++ c) (List.concat l)).
      replace (n - List.length (peeked ++ c))%nat with 0%nat by lia. now rewrite firstn_O, app_nil_r.
    + specialize (IH (peeked ++ c)). rewrite app_assoc. destruct (peekNext n (peeked ++ c) l); auto.
      destruct IH as [-> IH]. split; auto. intros _. destruct l; [cbn; rewrite app_nil_r; auto|]. apply IH. discriminate.
Qed.

Lemma peekReads_spec : forall n fin reads peeked, Forall (fun p => snd p = None) reads ->
  (List.length peeked < n)%nat ->
  exists p e l r z, peekReads n peeked reads fin = (p, e, l, r) /\
    let all := peeked ++ List.concat (map fst reads) in
    p = firstn n all /\ e = (if (n <=? List.length all)%nat then None else Some fin) /\
    Forall (fun p => snd p = None) r /\ map fst reads ++ z = l ++ map fst r /\ Forall (fun c => c = []) z.
Proof.
  intros n fin. induction reads as [|[c e] reads IH]; intros peeked H Hn; cbn [peekReads].
  - destruct (Nat.leb_spec n (List.length peeked)); [lia|].
    do 4 eexists. exists [[]]. split; [reflexivity|]. cbn. rewrite app_nil_r, firstn_all2 by lia. split; auto.
    destruct (Nat.leb_spec n (List.length peeked)); [lia|]. repeat split; auto; repeat constructor.
  - inversion H as [|? ? H1 H2]; subst. cbn in H1. subst e. cbn [map List.concat fst].
    destruct (Nat.leb_spec n (List.length (peeked ++ c))) as [L|L].
    + do 4 eexists. exists []. split; [reflexivity|]. cbn zeta. rewrite app_assoc, (firstn_app n (peeked ++ c) (List.concat (map fst reads))).
      replace (n - List.length (peeked ++ c))%nat with 0%nat by lia. rewrite firstn_O, app_nil_r. split; auto.
      destruct (Nat.leb_spec n (List.length ((peeked ++ c) ++ List.concat (map fst reads)))) as [|L']; [|rewrite app_length in L'; lia].
      split; auto. split; auto. split; auto. cbn. now rewrite app_nil_r.
    + destruct (IH (peeked ++ c) H2 L) as (p & e & l & r & z & E & Ep & Ee & Hr & Hz & Fz). rewrite E.
      do 4 eexists. exists z. split; [reflexivity|]. cbn zeta in *. rewrite app_assoc. split; auto. split; auto. split; auto.
      split; auto. cbn. now rewrite Hz.
Qed.

Lemma concat_nils : forall z : list bytes, Forall (fun c => c = []) z -> List.concat z = [].
Proof. induction 1 as [|c z -> _ IH]; auto. Qed.

Lemma PeekN_spec : forall n s, clean s ->
  exists s', PeekN n s = (firstn n (remaining s),
                          (if (n <=? List.length (remaining s))%nat then None else Some (end_error s)), s') /\
    remaining s' = remaining s /\ clean s' /\ end_error s' = end_error s /\ s_err s' = s_err s /\
    s_current s' = s_current s /\ exists z, chunks s' = chunks s ++ z /\ Forall (fun c => c = []) z.
Proof.
  intros n s Hc. unfold PeekN. assert (Same : exists z, chunks s = chunks s ++ z /\ Forall (fun c : bytes => c = []) z)
    by (exists []; rewrite app_nil_r; auto).
  destruct (Nat.leb_spec n (List.length (s_current s))) as [L|L].
  - exists s. split; [|auto 8].
    assert (E : remaining s = s_current s ++ List.concat (tl (chunks s))) by reflexivity.
    rewrite E, firstn_app, app_length. replace (n - List.length (s_current s))%nat with 0%nat by lia.
    rewrite firstn_O, app_nil_r. destruct (Nat.leb_spec n (List.length (s_current s) + List.length (List.concat (tl (chunks s)))))%nat; [auto|lia].
  - unfold clean in Hc. destruct (s_reader s) as [r|] eqn:Er.
    + assert (RE : remaining s = (s_current s ++ List.concat (s_next s)) ++ List.concat (map fst (r_reads r))).
      { unfold remaining, chunks. rewrite Er. cbn [List.concat]. now rewrite concat_app, app_assoc. }
      pose proof (peekNext_spec n (s_next s) (s_current s)) as PN.
      destruct (peekNext n (s_current s) (s_next s)) as [p|peeked].
      * destruct PN as [PN ->]. exists s. split.
        { rewrite RE. rewrite firstn_app with (l2 := List.concat (map fst (r_reads r))).
          replace (n - List.length (s_current s ++ List.concat (s_next s)))%nat with 0%nat by lia.
          rewrite firstn_O, app_nil_r, app_length.
          destruct (Nat.leb_spec n (List.length (s_current s ++ List.concat (s_next s)) + List.length (List.concat (map fst (r_reads r)))))%nat; [auto|lia]. }
        split; auto. split; [unfold clean; rewrite Er; auto|]. auto 8.
      * destruct PN as [-> PN].
        assert (Hl : (List.length (s_current s ++ List.concat (s_next s)) < n)%nat).
        { destruct (s_next s); [cbn; rewrite app_nil_r; lia|]. apply PN. discriminate. }
        destruct (peekReads_spec n (r_end r) (r_reads r) _ Hc Hl) as (p & e & l & rr & z & E & Ep & Ee & Hr & Hz & Fz).
        rewrite E. eexists. cbn zeta in Ep, Ee. rewrite <- RE in Ep, Ee. rewrite <- Ep.
        split; [rewrite Ee; unfold end_error; rewrite Er; reflexivity|].
        assert (CH : chunks (mkSource (s_err s) (Some (mkReader rr (r_end r))) (s_current s) (s_next s ++ l)) = chunks s ++ z).
        { unfold chunks. cbn [s_current s_next s_reader r_reads]. rewrite Er. cbn [app]. now rewrite <- !app_assoc, Hz. }
        split; [unfold remaining; rewrite CH, concat_app, (concat_nils z Fz), app_nil_r; reflexivity|].
        split; [exact Hr|]. split; [unfold end_error; rewrite Er; reflexivity|]. split; [reflexivity|]. split; [reflexivity|].
        exists z. auto.
    + exists s. assert (RE : remaining s = s_current s).
      { unfold remaining, chunks. rewrite Er, Hc. cbn. now rewrite app_nil_r. }
      rewrite RE, firstn_all2 by lia. split.
      { unfold end_error. rewrite Er. destruct (Nat.leb_spec n (List.length (s_current s))); [lia|auto]. }
      split; [auto|]. split; [unfold clean; rewrite Er; auto|]. auto 8.
Qed.

Lemma app_cons_split : forall A (a b p : list A) c q, a ++ b = p ++ c :: q ->
  (exists m, a = p ++ c :: m /\ q = m ++ b) \/ (exists m, p = a ++ m /\ b = m ++ c :: q).
Proof.
  induction a as [|x a IH]; intros b p c q E; [right; exists p; auto|].
  destruct p as [|y p]; cbn [app] in E; injection E as <- E.
  - left. exists a. auto.
  - destruct (IH _ _ _ _ E) as [(m & -> & ->)|(m & -> & ->)]; [left|right]; exists m; auto.
Qed.

Lemma compact_extend : forall s s' z, chunks s' = chunks s ++ z -> Forall (fun c => c = []) z -> compact s -> compact s'.
Proof.
  intros s s' z E F K p q E'. rewrite E in E'. apply app_cons_split in E' as [(m & E1 & ->)|(m & -> & E2)].
  - rewrite concat_app, (concat_nils z F), app_nil_r. eapply K; eauto.
  - apply concat_nils. rewrite E2 in F. apply Forall_app in F as [_ F]. now inversion F.
Qed.

(** * Scanning loops *)
Inductive stop_kind := AtEnd | Stopped | Failed (e : err).

Fixpoint walk {A} (body : A -> Z -> verdict A) (a : A) (s : bytes) : A * bytes * stop_kind :=
  match s with
  | [] => (a, [], AtEnd)
  | c :: r => match body a c with
              | Go a' => walk body a' r
              | Stop => (a, s, Stopped)
              | Fail e => (a, s, Failed e)
              end
  end.

Lemma scanBuf_spec : forall A (body : A -> Z -> verdict A) buf a i rest,
  match scanBuf body a i buf with
  | (a', _, Go _) => walk body a (buf ++ rest) = walk body a' rest
  | (a', j, Stop) => (i <= j < i + List.length buf)%nat /\ walk body a (buf ++ rest) = (a', skipn (j - i) buf ++ rest, Stopped)
  | (a', j, Fail e) => exists b, walk body a (buf ++ rest) = (a', b, Failed e)
  end.
Proof.
  intros A body. induction buf as [|c buf IH]; intros a i rest; cbn [scanBuf app]; auto.
  cbn [walk]. destruct (body a c) as [a'| |e].
  - specialize (IH a' (S i) rest). destruct (scanBuf body a' (S i) buf) as [[a'' j] [ | |e]]; auto.
    destruct IH as [B E]. cbn [List.length]. split; [lia|]. rewrite E.
    replace (j - i)%nat with (S (j - S i)) by lia. reflexivity.
  - cbn [List.length]. split; [lia|]. now replace (i - i)%nat with 0%nat by lia.
  - eauto.
Qed.

Lemma scanLoop_spec : forall A (body : A -> Z -> verdict A) zero fuel a s, clean s -> s_err s = None ->
  (List.length (chunks s) < fuel)%nat ->
  exists s', clean s' /\ end_error s' = end_error s /\ (compact s -> compact s') /\
  match walk body a (remaining s) with
  | (a', _, AtEnd) => scanLoop body zero fuel a s = Ok a' s' /\ remaining s' = [] /\ s_err s' = Some (end_error s)
  | (a', rest, Stopped) => scanLoop body zero fuel a s = Ok a' s' /\ remaining s' = rest /\ s_err s' = None /\ s_current s' <> []
  | (_, _, Failed e) => scanLoop body zero fuel a s = Ok zero s' /\ s_err s' = Some e
  end.
Proof.
  intros A body zero. induction fuel as [|fuel IH]; intros a s Hc He Hf; [lia|].
  cbn [scanLoop]. rewrite He. unfold Peek.
  pose proof (Consume_remaining s Hc) as R. rewrite R.
  pose proof (scanBuf_spec A body (s_current s) a 0 (remaining (Consume s))) as SB.
  destruct (scanBuf body a 0 (s_current s)) as [[a' i] [ | |e]].
  - rewrite SB. destruct (Consume_spec s Hc) as (Hc' & Hend & C).
    assert (CP : compact s -> compact (Consume s)).
    { intros K p q E. destruct (tl (chunks s)) as [|c t] eqn:T; destruct C as [C _]; rewrite C in E.
      - destruct p as [|? [|]]; cbn in E; try discriminate. injection E as <-. reflexivity.
      - apply (K (s_current s :: p) q). cbn [app]. rewrite <- E, <- T. reflexivity. }
    destruct (tl (chunks s)) as [|c t] eqn:T; destruct C as [C Er].
    + assert (R0 : remaining (Consume s) = []) by (unfold remaining; rewrite C; reflexivity).
      rewrite R0. cbn [walk].
      assert (L1 : List.length (chunks s) = 1%nat) by (unfold chunks in *; cbn [tl] in T; cbn; rewrite T; reflexivity).
      destruct fuel as [|fuel]; [lia|]. cbn [scanLoop]. rewrite Er, He. cbn [or_else].
      exists (Consume s). split; [exact Hc'|]. split; [exact Hend|]. split; [exact CP|].
      split; [reflexivity|]. split; [exact R0|]. rewrite Er, He. reflexivity.
    + assert (Lc : (List.length (chunks (Consume s)) < fuel)%nat).
      { rewrite C. unfold chunks in Hf, T. cbn [tl] in T. cbn [List.length] in Hf. rewrite T in Hf. cbn in *. lia. }
      rewrite He in Er. destruct (IH a' _ Hc' Er Lc) as (s' & C' & En & K & W). exists s'.
      split; [exact C'|]. split; [congruence|]. split; [tauto|]. rewrite <- Hend. exact W.
  - destruct SB as [B ->]. rewrite Nat.sub_0_r.
    assert (Hi : (i <= List.length (remaining s))%nat) by (rewrite R, app_length; lia).
    destruct (ConsumeN_ok i s Hc Hi) as (s' & E & R' & C' & En & K & _ & Ee).
    exists s'. split; [exact C'|]. split; [exact En|]. split; [exact K|].
    unfold bind. rewrite E. split; [reflexivity|]. split.
    + rewrite R', R, skipn_app. replace (i - List.length (s_current s))%nat with 0%nat by lia. reflexivity.
    + split; [rewrite Ee by lia; exact He|].
      unfold ConsumeN in E. rewrite rounds_chunks in E. cbn [consumeLoop] in E.
      destruct (Nat.leb_spec (List.length (s_current s)) i); [lia|]. rewrite andb_false_r in E. injection E as <-.
      cbn [s_current]. intros N. apply (f_equal (@List.length Z)) in N. rewrite skipn_length in N. cbn in N. lia.
  - destruct SB as (b & ->). exists (ReportError e s).
    split; [now apply ReportError_clean|]. split; [apply ReportError_end|]. split.
    + intros K p q E. rewrite ReportError_chunks in E. eapply K; eauto.
    + split; [reflexivity|]. rewrite ReportError_err, He. reflexivity.
Qed.

Lemma scan_spec : forall A (body : A -> Z -> verdict A) zero a s, clean s -> s_err s = None ->
  exists s', clean s' /\ end_error s' = end_error s /\ (compact s -> compact s') /\
  match walk body a (remaining s) with
  | (a', _, AtEnd) => scan body zero a s = Ok a' s' /\ remaining s' = [] /\ s_err s' = Some (end_error s)
  | (a', rest, Stopped) => scan body zero a s = Ok a' s' /\ remaining s' = rest /\ s_err s' = None /\ s_current s' <> []
  | (_, _, Failed e) => scan body zero a s = Ok zero s' /\ s_err s' = Some e
  end.
Proof. intros. apply scanLoop_spec; auto. rewrite rounds_chunks. lia. Qed.

Lemma scan_err : forall A (body : A -> Z -> verdict A) zero a s e, s_err s = Some e -> scan body zero a s = Ok a s.
Proof. intros. unfold scan. rewrite rounds_chunks. cbn [scanLoop]. now rewrite H. Qed.
