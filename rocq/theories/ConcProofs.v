(** Proofs about the executor and the lock based map. *)
From Verif Require Import Base ConcModel ConcSpec.

(** * Executor *)
Definition busy (p : phase) : bool := match p with Done => false | _ => true end.
Definition count_busy (loc : Z) (gs : list (Z * phase)) : Z :=
  Z.of_nat (List.length (filter (fun g => (fst g =? loc) && busy (snd g)) gs)).

Lemma eruns_snoc : forall evs s e, eruns s (evs ++ [e]) = match eruns s evs with Some s' => estep s' e | None => None end.
Proof.
  induction evs as [|x evs IH]; intros s e; cbn [eruns app].
  - destruct (estep s e); reflexivity.
  - destruct (estep s x); [apply IH | reflexivity].
Qed.
Lemma eruns_app : forall a b s, eruns s (a ++ b) = match eruns s a with Some s' => eruns s' b | None => None end.
Proof.
  induction a as [|x a IH]; intros b s; cbn [eruns app]; [reflexivity|]. destruct (estep s x); [apply IH | reflexivity].
Qed.

Lemma addTo_keys : forall m k d k', In k' (map fst (addTo m k d)) <-> k' = k \/ In k' (map fst m).
Proof.
  induction m as [|[a n] m IH]; intros k d k'; cbn [addTo map fst In].
  - split; [intros [A|A]; [left; congruence | destruct A] | intros [A|A]; [left; congruence | destruct A]].
  - destruct (Z.eqb_spec a k) as [A|A]; cbn [map fst In].
    + subst a. split; [intros [B|B]; [left; congruence | right; right; exact B] |
        intros [B|[B|B]]; [left; congruence | left; exact B | right; exact B]].
    + rewrite IH. tauto.
Qed.
Lemma addTo_nodup : forall m k d, NoDup (map fst m) -> NoDup (map fst (addTo m k d)).
Proof.
  induction m as [|[a n] m IH]; intros k d N; cbn [addTo map fst].
  - constructor; [intros []|constructor].
  - inversion N as [|x y N1 N2]; subst. destruct (Z.eqb_spec a k) as [A|A]; cbn [map fst].
    + constructor; assumption.
    + constructor; [|apply IH; exact N2]. intro B. apply addTo_keys in B. destruct B as [B|B]; [congruence | exact (N1 B)].
Qed.
Lemma addTo_in : forall m k d k' n, NoDup (map fst m) -> In (k', n) (addTo m k d) ->
  (k' <> k /\ In (k', n) m) \/ (k' = k /\ In (k', n - d) m) \/ (k' = k /\ n = d /\ ~ In k (map fst m)).
Proof.
  induction m as [|[a c] m IH]; intros k d k' n N I; cbn [addTo map fst In] in I |- *.
  - destruct I as [I|[]]. injection I as <- <-. right; right. repeat split. intros [].
  - inversion N as [|x y N1 N2]; subst. destruct (Z.eqb_spec a k) as [A|A].
    + destruct I as [I|I].
      * injection I as <- <-. right; left. split; [exact A|]. left. f_equal. lia.
      * subst a. left. split; [|right; exact I]. intros ->. apply N1. apply (in_map fst) in I. exact I.
    + destruct I as [I|I].
      * injection I as <- <-. left. split; [exact A | left; reflexivity].
      * destruct (IH k d k' n N2 I) as [[B C]|[[B C]|[B [C D]]]].
        -- left. split; [exact B | right; exact C].
        -- right; left. split; [exact B | right; exact C].
        -- right; right. repeat split; [exact B | exact C|]. intros [E|E]; [congruence | exact (D E)].
Qed.

Lemma set_nth_length : forall (A : Type) (l : list A) i x, List.length (set_nth l i x) = List.length l.
Proof. induction l as [|y l IH]; intros [|i] x; cbn [set_nth List.length]; [reflexivity..|]. rewrite IH. reflexivity. Qed.
Lemma set_nth_same : forall (A : Type) (l : list A) i x, (i < List.length l)%nat -> nth_error (set_nth l i x) i = Some x.
Proof.
  induction l as [|y l IH]; intros [|i] x L; cbn [set_nth List.length nth_error] in *; [lia | lia | reflexivity | apply IH; lia].
Qed.
Lemma set_nth_other : forall (A : Type) (l : list A) i j x, i <> j -> nth_error (set_nth l i x) j = nth_error l j.
Proof.
  induction l as [|y l IH]; intros [|i] [|j] x N; cbn [set_nth nth_error]; try reflexivity; [congruence | apply IH; congruence].
Qed.
Lemma set_nth_count : forall l i loc p q k, nth_error l i = Some (loc, p) ->
  count_busy k (set_nth l i (loc, q)) =
  count_busy k l + (if loc =? k then (if busy q then 1 else 0) - (if busy p then 1 else 0) else 0).
Proof.
  unfold count_busy. induction l as [|[a c] l IH]; intros [|i] loc p q k E; cbn [nth_error set_nth filter fst snd] in *; try discriminate E.
  - injection E as -> ->. destruct (loc =? k); cbn [andb]; [|lia]. destruct (busy p), (busy q); cbn [List.length]; lia.
  - specialize (IH i loc p q k E). destruct ((a =? k) && busy c); cbn [List.length]; lia.
Qed.
Lemma count_app : forall k l l', count_busy k (l ++ l') = count_busy k l + count_busy k l'.
Proof. intros k l l'. unfold count_busy. rewrite filter_app, app_length. lia. Qed.
Lemma count_nonneg : forall k l, 0 <= count_busy k l. Proof. intros. unfold count_busy. lia. Qed.
Lemma count_missing : forall k l, ~ In k (map fst l) -> count_busy k l = 0.
Proof.
  intros k l N. unfold count_busy. induction l as [|[a c] l IH]; [reflexivity|]. cbn [filter fst snd map In] in *.
  destruct (Z.eqb_spec a k) as [A|A]; [exfalso; apply N; left; exact A|]. cbn [andb]. apply IH. intro B. apply N. right; exact B.
Qed.
Lemma count_pos : forall k l i p, nth_error l i = Some (k, p) -> busy p = true -> 0 < count_busy k l.
Proof.
  unfold count_busy. induction l as [|[a c] l IH]; intros [|i] p E B; cbn [nth_error filter fst snd] in *; try discriminate E.
  - injection E as -> ->. rewrite Z.eqb_refl, B. cbn [andb List.length]. lia.
  - specialize (IH i p E B). destruct ((a =? k) && busy c); cbn [List.length]; lia.
Qed.
Lemma count_zero : forall k l, (forall i loc p, nth_error l i = Some (loc, p) -> p = Done) -> count_busy k l = 0.
Proof.
  unfold count_busy. induction l as [|[a c] l IH]; intros H; [reflexivity|]. cbn [filter fst snd].
  rewrite (H O a c eq_refl). cbn [busy]. rewrite Bool.andb_false_r. apply IH. intros i loc p E. exact (H (S i) loc p E).
Qed.
Lemma set_nth_keys : forall l i loc p q, nth_error l i = Some (loc, p) -> map fst (set_nth l i (loc, q)) = map (@fst Z phase) l.
Proof.
  induction l as [|[a c] l IH]; intros [|i] loc p q E; cbn [nth_error set_nth map fst] in *; try discriminate E.
  - injection E as -> ->. reflexivity.
  - rewrite (IH i loc p q E). reflexivity.
Qed.

Definition einv (evs : list eevent) (s : executor) : Prop :=
  List.length (goroutines s) = started evs /\
  NoDup (map fst (activeGoroutines s)) /\
  (forall k, In k (map fst (activeGoroutines s)) <-> In k (map fst (goroutines s))) /\
  (forall k n, In (k, n) (activeGoroutines s) -> n = count_busy k (goroutines s)) /\
  (forall i loc, nth_error (goroutines s) i = Some (loc, Running) -> forall how, ~ In (EEnd i how) evs) /\
  (forall i loc, nth_error (goroutines s) i = Some (loc, Leaving) -> (exists how, In (EEnd i how) evs) /\ ~ In (ELeave i) evs) /\
  (forall i loc, nth_error (goroutines s) i = Some (loc, Done) -> (exists how, In (EEnd i how) evs) /\ In (ELeave i) evs) /\
  (forall i, (exists how, In (EEnd i how) evs) \/ In (ELeave i) evs -> (i < List.length (goroutines s))%nat).

Lemma started_snoc : forall evs e, started (evs ++ [e]) = (started evs + match e with EGo _ => 1 | _ => 0 end)%nat.
Proof. intros. unfold started. rewrite filter_app, app_length. destruct e; reflexivity. Qed.
Lemma in_snoc : forall (A : Type) (l : list A) x y, In y (l ++ [x]) <-> In y l \/ y = x.
Proof. intros. rewrite in_app_iff. cbn [In]. split; [intros [H|[H|[]]]; auto | intros [H|H]; auto]. Qed.

Lemma einv_other : forall evs s e s',
  einv evs s -> goroutines s' = goroutines s -> activeGoroutines s' = activeGoroutines s ->
  (match e with EGo _ | EEnd _ _ | ELeave _ => False | _ => True end) -> einv (evs ++ [e]) s'.
Proof.
  intros evs s e s' I G A N. unfold einv. rewrite G, A, started_snoc.
  destruct I as [I1 [I2 [I3 [I4 [I5 [I6 [I7 I8]]]]]]].
  assert (X : forall i how, In (EEnd i how) (evs ++ [e]) <-> In (EEnd i how) evs).
  { intros i how. rewrite in_snoc. split; [intros [H|H]; [exact H | subst e; destruct N] | auto]. }
  assert (Y : forall i, In (ELeave i) (evs ++ [e]) <-> In (ELeave i) evs).
  { intros i. rewrite in_snoc. split; [intros [H|H]; [exact H | subst e; destruct N] | auto]. }
  split; [destruct e; try destruct N; lia|]. split; [exact I2|]. split; [exact I3|]. split; [exact I4|].
  split; [intros i loc E how; rewrite X; exact (I5 i loc E how)|].
  split; [intros i loc E; rewrite Y; destruct (I6 i loc E) as [[how Hh] Hn]; split; [exists how; rewrite X; exact Hh | exact Hn]|].
  split; [intros i loc E; rewrite Y; destruct (I7 i loc E) as [[how Hh] Hn]; split; [exists how; rewrite X; exact Hh | exact Hn]|].
  intros i [[how H]|H]; apply I8; [left; exists how; rewrite <- X; exact H | right; rewrite <- Y; exact H].
Qed.

Lemma einv_holds : forall evs s, eruns NewUnboundedExecutor evs = Some s -> einv evs s.
Proof.
  induction evs as [|e evs IH] using rev_ind; intros s R.
  - injection R as <-. unfold einv, NewUnboundedExecutor, started. cbn [goroutines activeGoroutines map filter List.length In].
    split; [reflexivity|]. split; [constructor|]. split; [intro k; reflexivity|]. split; [intros k n []|].
    split; [intros i loc E; destruct i; discriminate E|]. split; [intros i loc E; destruct i; discriminate E|].
    split; [intros i loc E; destruct i; discriminate E|]. intros i [[how []]|[]].
  - rewrite eruns_snoc in R. destruct (eruns NewUnboundedExecutor evs) as [s0|] eqn:E0; [|discriminate R].
    specialize (IH s0 eq_refl). destruct e as [loc|i how|i| |w|w|w|w]; cbn [estep] in R.
    + injection R as <-. destruct IH as [I1 [I2 [I3 [I4 [I5 [I6 [I7 I8]]]]]]]. unfold einv. cbn [goroutines activeGoroutines].
      assert (X : forall i how, In (EEnd i how) (evs ++ [EGo loc]) <-> In (EEnd i how) evs).
      { intros i how. rewrite in_snoc. split; [intros [H|H]; [exact H | discriminate H] | auto]. }
      assert (Y : forall i, In (ELeave i) (evs ++ [EGo loc]) <-> In (ELeave i) evs).
      { intros i. rewrite in_snoc. split; [intros [H|H]; [exact H | discriminate H] | auto]. }
      assert (Z0 : forall i x, nth_error (goroutines s0 ++ [(loc, Running)]) i = Some x ->
        nth_error (goroutines s0) i = Some x \/ (i = List.length (goroutines s0) /\ x = (loc, Running))).
      { intros i x E. destruct (Nat.lt_ge_cases i (List.length (goroutines s0))) as [L|L].
        - rewrite nth_error_app1 in E by exact L. left; exact E.
        - rewrite nth_error_app2 in E by exact L. right. destruct (i - List.length (goroutines s0))%nat as [|d] eqn:D.
          + injection E as <-. split; [lia | reflexivity].
          + destruct d; discriminate E. }
      split; [rewrite started_snoc, app_length, I1; reflexivity|].
      split; [apply addTo_nodup; exact I2|].
      split.
      { intro k. rewrite addTo_keys, I3, map_app, in_app_iff. cbn [map fst In]. split; [intros [H|H]; [right; left; congruence | left; exact H] |
          intros [H|[H|[]]]; [right; exact H | left; congruence]]. }
      split.
      { intros k n I. rewrite count_app. destruct (addTo_in _ _ _ _ _ I2 I) as [[A B]|[[A B]|[A [B C]]]].
        - rewrite (I4 _ _ B). unfold count_busy at 3. cbn [filter fst snd]. rewrite (proj2 (Z.eqb_neq loc k)) by congruence. cbn [andb List.length]. lia.
        - subst k. pose proof (I4 _ _ B) as D. unfold count_busy at 2. cbn [filter fst snd]. rewrite Z.eqb_refl. cbn [andb busy List.length]. lia.
        - subst k n. rewrite I3 in C. rewrite (count_missing _ _ C). unfold count_busy. cbn [filter fst snd]. rewrite Z.eqb_refl. reflexivity. }
      split.
      { intros i l E how. rewrite X. destruct (Z0 i _ E) as [A|[A B]]; [exact (I5 i l A how)|]. intro C.
        assert (i < List.length (goroutines s0))%nat by (apply I8; left; exists how; exact C). lia. }
      split.
      { intros i l E. destruct (Z0 i _ E) as [A|[A B]]; [|discriminate B]. rewrite Y. destruct (I6 i l A) as [[how Hh] Hn].
        split; [exists how; rewrite X; exact Hh | exact Hn]. }
      split.
      { intros i l E. destruct (Z0 i _ E) as [A|[A B]]; [|discriminate B]. rewrite Y. destruct (I7 i l A) as [[how Hh] Hn].
        split; [exists how; rewrite X; exact Hh | exact Hn]. }
      intros i H. rewrite app_length. assert (i < List.length (goroutines s0))%nat; [|lia].
      apply I8. destruct H as [[how H]|H]; [left; exists how; rewrite <- X; exact H | right; rewrite <- Y; exact H].
    + destruct (nth_error (goroutines s0) i) as [[loc p]|] eqn:E; [|discriminate R]. destruct p; try discriminate R.
      injection R as <-. destruct IH as [I1 [I2 [I3 [I4 [I5 [I6 [I7 I8]]]]]]]. unfold einv. cbn [goroutines activeGoroutines].
      assert (L : (i < List.length (goroutines s0))%nat) by (apply nth_error_Some; rewrite E; discriminate).
      assert (X : forall j h, j <> i -> (In (EEnd j h) (evs ++ [EEnd i how]) <-> In (EEnd j h) evs)).
      { intros j h N. rewrite in_snoc. split; [intros [H|H]; [exact H | injection H as -> ->; congruence] | auto]. }
      assert (Y : forall j, In (ELeave j) (evs ++ [EEnd i how]) <-> In (ELeave j) evs).
      { intros j. rewrite in_snoc. split; [intros [H|H]; [exact H | discriminate H] | auto]. }
      split; [rewrite started_snoc, set_nth_length, I1; lia|].
      split; [exact I2|].
      split; [intro k; rewrite (set_nth_keys _ _ _ _ _ E); apply I3|].
      split; [intros k n I; rewrite (set_nth_count _ _ _ _ _ _ E), (I4 _ _ I); cbn [busy]; destruct (loc =? k); lia|].
      split.
      { intros j l F h. destruct (Nat.eq_dec i j) as [<-|N]; [rewrite set_nth_same in F by exact L; discriminate F|].
        rewrite set_nth_other in F by exact N. rewrite X by congruence. exact (I5 j l F h). }
      split.
      { intros j l F. rewrite Y. destruct (Nat.eq_dec i j) as [<-|N].
        - split; [exists how; rewrite in_snoc; right; reflexivity|]. intro Q.
          assert (D : forall q, nth_error (goroutines s0) i = Some q -> snd q = Done -> False) by (intros q A B; rewrite E in A; injection A as <-; discriminate B).
          clear - E Q E0. (* a goroutine still running has not left *)
          exfalso. revert E Q. revert E0. revert s0. revert i loc.
          assert (M : forall evs s, eruns NewUnboundedExecutor evs = Some s -> forall i, In (ELeave i) evs -> exists l, nth_error (goroutines s) i = Some (l, Done)).
          { induction evs0 as [|e evs0 IH] using rev_ind; intros s R i I; [destruct I|].
            rewrite eruns_snoc in R. destruct (eruns NewUnboundedExecutor evs0) as [s0|]; [|discriminate R]. specialize (IH s0 eq_refl).
            rewrite in_snoc in I. destruct I as [I|I].
            - destruct (IH i I) as [l D]. destruct e as [loc|j how|j| |w|w|w|w]; cbn [estep] in R.
              + injection R as <-. cbn [goroutines]. exists l. rewrite nth_error_app1; [exact D|]. apply nth_error_Some. rewrite D. discriminate.
              + destruct (nth_error (goroutines s0) j) as [[loc p]|] eqn:E; [|discriminate R]. destruct p; try discriminate R.
                injection R as <-. cbn [goroutines]. exists l. rewrite set_nth_other; [exact D|]. intros ->. congruence.
              + destruct (nth_error (goroutines s0) j) as [[loc p]|] eqn:E; [|discriminate R]. destruct p; try discriminate R.
                injection R as <-. cbn [goroutines]. exists l. rewrite set_nth_other; [exact D|]. intros ->. congruence.
              + injection R as <-. exists l. exact D.
              + destruct (waiters s0 w); try discriminate R. injection R as <-. exists l. exact D.
              + destruct (waiters s0 w); try discriminate R. injection R as <-. exists l. exact D.
              + destruct (waiters s0 w); try discriminate R. injection R as <-. exists l. exact D.
              + destruct (waiters s0 w); try discriminate R. injection R as <-. exists l. exact D.
            - subst e. cbn [estep] in R. destruct (nth_error (goroutines s0) i) as [[loc p]|] eqn:E; [|discriminate R]. destruct p; try discriminate R.
              injection R as <-. cbn [goroutines]. exists loc. apply set_nth_same. apply nth_error_Some. rewrite E. discriminate. }
          intros i loc s0 E0 E Q. destruct (M evs s0 E0 i Q) as [l D]. congruence.
        - rewrite set_nth_other in F by exact N. destruct (I6 j l F) as [[h Hh] Hn]. split; [exists h; rewrite X by congruence; exact Hh | exact Hn]. }
      split.
      { intros j l F. rewrite Y. destruct (Nat.eq_dec i j) as [<-|N]; [rewrite set_nth_same in F by exact L; discriminate F|].
        rewrite set_nth_other in F by exact N. destruct (I7 j l F) as [[h Hh] Hn]. split; [exists h; rewrite X by congruence; exact Hh | exact Hn]. }
      intros j H. rewrite set_nth_length. destruct H as [[h H]|H].
      * rewrite in_snoc in H. destruct H as [H|H]; [apply I8; left; exists h; exact H | injection H as -> _; exact L].
      * rewrite Y in H. apply I8. right; exact H.
    + destruct (nth_error (goroutines s0) i) as [[loc p]|] eqn:E; [|discriminate R]. destruct p; try discriminate R.
      injection R as <-. destruct IH as [I1 [I2 [I3 [I4 [I5 [I6 [I7 I8]]]]]]]. unfold einv. cbn [goroutines activeGoroutines].
      assert (L : (i < List.length (goroutines s0))%nat) by (apply nth_error_Some; rewrite E; discriminate).
      assert (X : forall j h, In (EEnd j h) (evs ++ [ELeave i]) <-> In (EEnd j h) evs).
      { intros j h. rewrite in_snoc. split; [intros [H|H]; [exact H | discriminate H] | auto]. }
      assert (Y : forall j, j <> i -> (In (ELeave j) (evs ++ [ELeave i]) <-> In (ELeave j) evs)).
      { intros j N. rewrite in_snoc. split; [intros [H|H]; [exact H | injection H as ->; congruence] | auto]. }
      split; [rewrite started_snoc, set_nth_length, I1; lia|].
      split; [apply addTo_nodup; exact I2|].
      assert (K : In loc (map fst (goroutines s0))) by (apply (in_map fst) with (x := (loc, Leaving)); exact (nth_error_In _ _ E)).
      split; [intro k; rewrite (set_nth_keys _ _ _ _ _ E), addTo_keys, I3; split; [intros [H|H]; [subst k; exact K | exact H] | auto]|].
      split.
      { intros k n I. rewrite (set_nth_count _ _ _ _ _ _ E). cbn [busy]. destruct (addTo_in _ _ _ _ _ I2 I) as [[A B]|[[A B]|[A [B C]]]].
        - rewrite (I4 _ _ B). rewrite (proj2 (Z.eqb_neq loc k)) by congruence. lia.
        - subst k. rewrite Z.eqb_refl. pose proof (I4 _ _ B). lia.
        - subst k n. exfalso. apply C. rewrite I3. exact K. }
      split.
      { intros j l F h. rewrite X. destruct (Nat.eq_dec i j) as [<-|N]; [rewrite set_nth_same in F by exact L; discriminate F|].
        rewrite set_nth_other in F by exact N. exact (I5 j l F h). }
      split.
      { intros j l F. destruct (Nat.eq_dec i j) as [<-|N]; [rewrite set_nth_same in F by exact L; discriminate F|].
        rewrite set_nth_other in F by exact N. rewrite Y by congruence. destruct (I6 j l F) as [[h Hh] Hn].
        split; [exists h; rewrite X; exact Hh | exact Hn]. }
      split.
      { intros j l F. destruct (Nat.eq_dec i j) as [<-|N].
        - destruct (I6 i loc E) as [[h Hh] _]. split; [exists h; rewrite X; exact Hh | rewrite in_snoc; right; reflexivity].
        - rewrite set_nth_other in F by exact N. rewrite Y by congruence. destruct (I7 j l F) as [[h Hh] Hn].
          split; [exists h; rewrite X; exact Hh | exact Hn]. }
      intros j H. rewrite set_nth_length. destruct H as [[h H]|H].
      * rewrite X in H. apply I8. left; exists h; exact H.
      * rewrite in_snoc in H. destruct H as [H|H]; [apply I8; right; exact H | injection H as ->; exact L].
    + injection R as <-. eapply einv_other; [exact IH | reflexivity | reflexivity | exact I].
    + destruct (waiters s0 w); try discriminate R; injection R as <-; (eapply einv_other; [exact IH | reflexivity | reflexivity | exact I]).
    + destruct (waiters s0 w); try discriminate R; injection R as <-; (eapply einv_other; [exact IH | reflexivity | reflexivity | exact I]).
    + destruct (waiters s0 w); try discriminate R; injection R as <-; (eapply einv_other; [exact IH | reflexivity | reflexivity | exact I]).
    + destruct (waiters s0 w); try discriminate R; injection R as <-; (eapply einv_other; [exact IH | reflexivity | reflexivity | exact I]).
Qed.

(** The check succeeds exactly when everything is over. *)
Lemma check_iff : forall evs s, eruns NewUnboundedExecutor evs = Some s ->
  (checkGoroutines (activeGoroutines s) = true <-> all_over evs).
Proof.
  intros evs s R. destruct (einv_holds _ _ R) as [I1 [I2 [I3 [I4 [I5 [I6 [I7 I8]]]]]]].
  unfold checkGoroutines, all_over. rewrite forallb_forall. split.
  - intros C i L. destruct (nth_error (goroutines s) i) as [[loc p]|] eqn:E; [|apply nth_error_None in E; lia].
    destruct p; [| |exact (I7 i loc E)]; exfalso.
    + assert (K : In loc (map fst (activeGoroutines s))) by (rewrite I3; apply (in_map fst) with (x := (loc, Running)); exact (nth_error_In _ _ E)).
      apply in_map_iff in K. destruct K as [[k n] [A B]]. cbn [fst] in A. subst k. specialize (C _ B). cbn [snd] in C.
      rewrite (I4 _ _ B) in C. pose proof (count_pos _ _ _ _ E eq_refl). destruct (Z.ltb_spec 0 (count_busy loc (goroutines s))); [discriminate C | lia].
    + assert (K : In loc (map fst (activeGoroutines s))) by (rewrite I3; apply (in_map fst) with (x := (loc, Leaving)); exact (nth_error_In _ _ E)).
      apply in_map_iff in K. destruct K as [[k n] [A B]]. cbn [fst] in A. subst k. specialize (C _ B). cbn [snd] in C.
      rewrite (I4 _ _ B) in C. pose proof (count_pos _ _ _ _ E eq_refl). destruct (Z.ltb_spec 0 (count_busy loc (goroutines s))); [discriminate C | lia].
  - intros A [k n] B. cbn [snd]. rewrite (I4 _ _ B), (count_zero k); [reflexivity|].
    intros i loc p E. assert (L : (i < started evs)%nat) by (rewrite <- I1; apply nth_error_Some; rewrite E; discriminate).
    destruct (A i L) as [[how H1] H2]. destruct p; [destruct (I5 i loc E how H1) | destruct (I6 i loc E) as [_ N]; destruct (N H2) | reflexivity].
Qed.

Lemma cancelled_stays : forall evs s s', eruns s evs = Some s' -> cancelled s = true -> cancelled s' = true.
Proof.
  induction evs as [|e evs IH]; intros s s' R C; cbn [eruns] in R; [injection R as <-; exact C|].
  destruct (estep s e) as [s1|] eqn:E; [|discriminate R]. apply (IH s1 s' R).
  destruct e as [loc|i how|i| |w|w|w|w]; cbn [estep] in E.
  - injection E as <-. exact C.
  - destruct (nth_error (goroutines s) i) as [[l p]|]; [|discriminate E]. destruct p; try discriminate E. injection E as <-. exact C.
  - destruct (nth_error (goroutines s) i) as [[l p]|]; [|discriminate E]. destruct p; try discriminate E. injection E as <-. exact C.
  - injection E as <-. reflexivity.
  - destruct (waiters s w); try discriminate E. injection E as <-. reflexivity.
  - destruct (waiters s w); try discriminate E. injection E as <-. exact C.
  - destruct (waiters s w); try discriminate E. injection E as <-. exact C.
  - destruct (waiters s w); try discriminate E. injection E as <-. exact C.
Qed.

(** Where a call of StopAndWait is, told by the events. *)
Lemma waiter_inv : forall evs s w, eruns NewUnboundedExecutor evs = Some s ->
  match waiters s w with
  | NotCalled => True
  | Waiting | Checking => In (EStopAndWait w) evs /\ cancelled s = true
  | AllDone => cancelled s = true /\
    exists a b, evs = a ++ ECheck w :: b /\ In (EStopAndWait w) a /\ all_over a
  | GaveUp => In (EDone w) evs
  end.
Proof.
  induction evs as [|e evs IH] using rev_ind; intros s w R; [injection R as <-; exact I|].
  pose proof R as R0. rewrite eruns_snoc in R. destruct (eruns NewUnboundedExecutor evs) as [s0|] eqn:E0; [|discriminate R].
  specialize (IH s0 w eq_refl).
  assert (C : cancelled s0 = true -> cancelled s = true).
  { intro C. apply (cancelled_stays [e] s0); [cbn [eruns]; rewrite R; reflexivity | exact C]. }
  assert (G : waiters s w = waiters s0 w -> match waiters s w with
  | NotCalled => True
  | Waiting | Checking => In (EStopAndWait w) (evs ++ [e]) /\ cancelled s = true
  | AllDone => cancelled s = true /\
    exists a b, evs ++ [e] = a ++ ECheck w :: b /\ In (EStopAndWait w) a /\ all_over a
  | GaveUp => In (EDone w) (evs ++ [e])
  end).
  { intro W. rewrite W. destruct (waiters s0 w); try exact I.
    - destruct IH as [A B]. split; [apply in_or_app; left; exact A | exact (C B)].
    - destruct IH as [A B]. split; [apply in_or_app; left; exact A | exact (C B)].
    - destruct IH as [A [a [b [B D]]]]. split; [exact (C A)|]. exists a, (b ++ [e]). split; [rewrite B, <- app_assoc; reflexivity | exact D].
    - apply in_or_app; left; exact IH. }
  destruct e as [loc|i how|i| |v|v|v|v]; cbn [estep] in R.
  - injection R as <-. apply G. reflexivity.
  - destruct (nth_error (goroutines s0) i) as [[l p]|]; [|discriminate R]. destruct p; try discriminate R. injection R as <-. apply G. reflexivity.
  - destruct (nth_error (goroutines s0) i) as [[l p]|]; [|discriminate R]. destruct p; try discriminate R. injection R as <-. apply G. reflexivity.
  - injection R as <-. apply G. reflexivity.
  - destruct (waiters s0 v) eqn:V; try discriminate R. injection R as <-. cbn [waiters cancelled] in *. unfold set_waiter in *.
    destruct (Z.eqb_spec w v) as [->|N]; [|exact (G eq_refl)]. split; [apply in_or_app; right; left; reflexivity | reflexivity].
  - destruct (waiters s0 v) eqn:V; try discriminate R. injection R as <-. cbn [waiters cancelled] in *. unfold set_waiter in *.
    destruct (Z.eqb_spec w v) as [->|N]; [|exact (G eq_refl)]. rewrite V in IH. destruct IH as [A B]. split; [apply in_or_app; left; exact A | exact B].
  - destruct (waiters s0 v) eqn:V; try discriminate R. injection R as <-. cbn [waiters cancelled] in *. unfold set_waiter in *.
    destruct (Z.eqb_spec w v) as [->|N]; [|exact (G eq_refl)]. apply in_or_app; right; left; reflexivity.
  - destruct (waiters s0 v) eqn:V; try discriminate R. injection R as <-. cbn [waiters cancelled] in *. unfold set_waiter in *.
    destruct (Z.eqb_spec w v) as [->|N]; [|exact (G eq_refl)]. rewrite V in IH. destruct IH as [A B].
    destruct (checkGoroutines (activeGoroutines s0)) eqn:K.
    + split; [exact B|]. exists evs, []. split; [reflexivity|]. split; [exact A|]. apply (check_iff evs s0 E0). exact K.
    + split; [apply in_or_app; left; exact A | exact B].
Qed.

(** * Map *)
Lemma mruns_app : forall a b s, mruns s (a ++ b) =
  match mruns s a with
  | Some (s', l) => match mruns s' b with Some (s'', l') => Some (s'', l ++ l') | None => None end
  | None => None
  end.
Proof.
  induction a as [|e a IH]; intros b s; cbn [mruns app].
  - destruct (mruns s b) as [[s' l]|]; reflexivity.
  - destruct (mstep s e) as [[s1 l1]|]; [|reflexivity]. rewrite IH. destruct (mruns s1 a) as [[s2 l2]|]; [|reflexivity].
    destruct (mruns s2 b) as [[s3 l3]|]; [|reflexivity]. rewrite app_assoc. reflexivity.
Qed.
Lemma mruns_snoc : forall evs e s, mruns s (evs ++ [e]) =
  match mruns s evs with
  | Some (s', l) => match mstep s' e with Some (s'', l') => Some (s'', l ++ l') | None => None end
  | None => None
  end.
Proof.
  intros. rewrite mruns_app. destruct (mruns s evs) as [[s' l]|]; [|reflexivity]. cbn [mruns].
  destruct (mstep s' e) as [[s'' l']|]; [|reflexivity]. rewrite app_nil_r. reflexivity.
Qed.

Definition holds_read (p : mpc) : Prop := match p with Locked (Load _) | Using (Load _) | Used (Load _) _ => True | _ => False end.
Definition holds_write (p : mpc) : Prop := match p with Locked (Store _ _) | Using (Store _ _) | Used (Store _ _) _ => True | _ => False end.
Definition is_using (p : mpc) : Prop := match p with Using _ => True | _ => False end.
Definition minv (s : cmap) : Prop :=
  (forall id, In id (rlocks s) <-> holds_read (mpcs s id)) /\
  (forall id, wlock s = Some id <-> holds_write (mpcs s id)) /\
  (wlock s <> None -> rlocks s = []) /\
  (forall id, In id (inuse s) -> is_using (mpcs s id)) /\
  crashed s = false.

Lemma in_remove_id : forall i id l, In i (remove_id id l) <-> In i l /\ i <> id.
Proof.
  intros. unfold remove_id. rewrite filter_In, Bool.negb_true_iff, Nat.eqb_neq. reflexivity.
Qed.

Ltac mpc_case i id := unfold set_mpc; destruct (Nat.eqb_spec i id) as [->|].

Lemma minv_step : forall s e s' l, minv s -> mstep s e = Some (s', l) -> minv s'.
Proof.
  intros s e s' l [J1 [J2 [J3 [J4 J5]]]] E. destruct e as [id o|id|id|id|id|id r]; cbn [mstep] in E.
  - destruct (mpcs s id) eqn:P; try discriminate E. injection E as <- <-. unfold minv. cbn [rlocks wlock mpcs inuse crashed].
    split; [intro i; mpc_case i id; [rewrite J1, P; cbn; tauto | apply J1]|].
    split; [intro i; mpc_case i id; [rewrite J2, P; cbn; tauto | apply J2]|].
    split; [exact J3|]. split; [|exact J5].
    intros i I. mpc_case i id; [apply J4 in I; rewrite P in I; destruct I | exact (J4 i I)].
  - destruct (mpcs s id) eqn:P; try discriminate E. destruct o as [k|k v].
    + destruct (wlock s) eqn:W; [discriminate E|]. injection E as <- <-. unfold minv. cbn [rlocks wlock mpcs inuse crashed].
      split; [intro i; mpc_case i id; cbn [In holds_read]; [tauto|]; rewrite J1; split; [intros [A|A]; [congruence | exact A] | auto]|].
      split; [intro i; mpc_case i id; [cbn; split; [discriminate | tauto] | apply J2]|].
      split; [congruence|]. split; [|exact J5].
      intros i I. mpc_case i id; [apply J4 in I; rewrite P in I; destruct I | exact (J4 i I)].
    + destruct (wlock s) eqn:W; [discriminate E|]. destruct (rlocks s) eqn:RL; [|discriminate E]. injection E as <- <-. unfold minv. cbn [rlocks wlock mpcs inuse crashed].
      split; [intro i; mpc_case i id; cbn [In holds_read]; [tauto | apply J1]|].
      split; [intro i; mpc_case i id; cbn [holds_write]; [tauto|]; rewrite <- J2; split; [congruence | discriminate]|].
      split; [reflexivity|]. split; [|exact J5].
      intros i I. mpc_case i id; [apply J4 in I; rewrite P in I; destruct I | exact (J4 i I)].
  - destruct (mpcs s id) eqn:P; try discriminate E. injection E as <- <-. unfold minv. cbn [rlocks wlock mpcs inuse crashed].
    split; [intro i; mpc_case i id; [rewrite J1, P; destruct o; cbn; tauto | apply J1]|].
    split; [intro i; mpc_case i id; [rewrite J2, P; destruct o; cbn; tauto | apply J2]|].
    split; [exact J3|]. split.
    + intros i I. mpc_case i id; [exact Logic.I|]. destruct I as [I|I]; [congruence | exact (J4 i I)].
    + rewrite J5. cbn [orb]. destruct o as [k|k v].
      * (* a reader: nobody is writing *)
        assert (A : In id (rlocks s)) by (rewrite J1, P; exact Logic.I).
        destruct (existsb (fun i => is_store (mpcs s i)) (inuse s)) eqn:X; [|reflexivity].
        apply existsb_exists in X. destruct X as [i [X1 X2]].
        assert (W : wlock s = Some i) by (rewrite J2; destruct (mpcs s i) as [| | |[|]| | |]; try discriminate X2; exact Logic.I).
        rewrite J3 in A by congruence. destruct A.
      * (* a writer: nobody is using the map *)
        assert (W : wlock s = Some id) by (rewrite J2, P; exact Logic.I).
        destruct (inuse s) as [|i is] eqn:U; [reflexivity|]. exfalso.
        assert (Y : is_using (mpcs s i)) by (apply J4; left; reflexivity).
        destruct (mpcs s i) as [| | |[k'|k' v']| | |] eqn:Q; try destruct Y.
        -- assert (B : In i (rlocks s)) by (rewrite J1, Q; exact Logic.I). rewrite J3 in B by congruence. destruct B.
        -- assert (B : wlock s = Some i) by (rewrite J2, Q; exact Logic.I). assert (i = id) by congruence. subst i. congruence.
  - destruct (mpcs s id) eqn:P; try discriminate E. destruct (access (data s) o) as [d r] eqn:AC. injection E as <- <-.
    unfold minv. cbn [rlocks wlock mpcs inuse crashed].
    split; [intro i; mpc_case i id; [rewrite J1, P; destruct o; cbn; tauto | apply J1]|].
    split; [intro i; mpc_case i id; [rewrite J2, P; destruct o; cbn; tauto | apply J2]|].
    split; [exact J3|]. split; [|exact J5].
    intros i I. apply in_remove_id in I. destruct I as [I N]. mpc_case i id; [congruence | exact (J4 i I)].
  - destruct (mpcs s id) as [| | | |o r| |] eqn:P; try discriminate E. destruct o as [k|k v]; injection E as <- <-; unfold minv; cbn [rlocks wlock mpcs inuse crashed].
    + split; [intro i; rewrite in_remove_id; mpc_case i id; cbn [holds_read]; [tauto|]; rewrite J1; tauto|].
      split; [intro i; mpc_case i id; [rewrite J2, P; cbn; tauto | apply J2]|].
      assert (A : In id (rlocks s)) by (rewrite J1, P; exact Logic.I).
      split; [intro W; rewrite (J3 W) in A; destruct A|]. split; [|exact J5].
      intros i I. mpc_case i id; [apply J4 in I; rewrite P in I; destruct I | exact (J4 i I)].
    + assert (W : wlock s = Some id) by (rewrite J2, P; exact Logic.I).
      split; [intro i; mpc_case i id; [rewrite J1, P; cbn; tauto | apply J1]|].
      split; [intro i; mpc_case i id; cbn [holds_write]; [split; [discriminate | tauto]|]; rewrite <- J2; split; [discriminate | congruence]|].
      split; [congruence|]. split; [|exact J5].
      intros i I. mpc_case i id; [apply J4 in I; rewrite P in I; destruct I | exact (J4 i I)].
  - destruct (mpcs s id) as [| | | | |o r'|] eqn:P; try discriminate E.
    assert (Y : s' = mkMap (rlocks s) (wlock s) (data s) (crashed s) (set_mpc (mpcs s) id Over) (inuse s)).
    { destruct r as [a|], r' as [b|]; try discriminate E; [|injection E as <- _; reflexivity].
      destruct (match a, b with Some x, Some y => x =? y | None, None => true | _, _ => false end); [injection E as <- _; reflexivity | discriminate E]. }
    subst s'. unfold minv. cbn [rlocks wlock mpcs inuse crashed].
    split; [intro i; mpc_case i id; [rewrite J1, P; destruct o; cbn; tauto | apply J1]|].
    split; [intro i; mpc_case i id; [rewrite J2, P; destruct o; cbn; tauto | apply J2]|].
    split; [exact J3|]. split; [|exact J5].
    intros i I. mpc_case i id; [apply J4 in I; rewrite P in I; destruct I | exact (J4 i I)].
Qed.
Lemma minv_init : minv NewMap.
Proof.
  unfold minv, NewMap. cbn [rlocks wlock mpcs inuse crashed In holds_read holds_write].
  split; [tauto|]. split; [intro; split; [discriminate | tauto]|]. split; [reflexivity|]. split; [intros id []|reflexivity].
Qed.
Lemma minv_runs : forall evs s s' l, minv s -> mruns s evs = Some (s', l) -> minv s'.
Proof.
  induction evs as [|e evs IH]; intros s s' l J R; cbn [mruns] in R; [injection R as <- <-; exact J|].
  destruct (mstep s e) as [[s1 l1]|] eqn:E; [|discriminate R]. destruct (mruns s1 evs) as [[s2 l2]|] eqn:R2; [|discriminate R].
  injection R as <- <-. exact (IH _ _ _ (minv_step _ _ _ _ J E) R2).
Qed.

(** The content after a sequence of operations done one after the other *)
Fixpoint content (m : Z -> option Z) (l : list (nat * op * ret)) : Z -> option Z :=
  match l with
  | [] => m
  | (_, Load _, _) :: l => content m l
  | (_, Store k v, _) :: l => content (fun k' => if k' =? k then Some v else m k') l
  end.
Lemma content_app : forall a b m, content m (a ++ b) = content (content m a) b.
Proof.
  induction a as [|[[i o] r] a IH]; intros b m; cbn [content app]; [reflexivity|]. destruct o; apply IH.
Qed.
Lemma legal_app : forall a b m, legal m (a ++ b) <-> legal m a /\ legal (content m a) b.
Proof.
  induction a as [|[[i o] r] a IH]; intros b m; cbn [legal content app]; [tauto|]. destruct o; rewrite IH; tauto.
Qed.
Lemma history_snoc : forall evs e, history (evs ++ [e]) = history evs ++ match e with MInvoke id o => [Inv id o] | MRespond id r => [Resp id r] | _ => [] end.
Proof. intros. unfold history. rewrite flat_map_app. cbn [flat_map]. rewrite app_nil_r. reflexivity. Qed.
Lemma history_app : forall a b, history (a ++ b) = history a ++ history b.
Proof. intros. unfold history. apply flat_map_app. Qed.

Lemma nodup_snoc : forall (l : list nat) x, NoDup l -> ~ In x l -> NoDup (l ++ [x]).
Proof.
  induction l as [|y l IH]; intros x N I; cbn [app]; [constructor; [intros [] | constructor]|].
  inversion N as [|a b N1 N2]; subst. constructor.
  - rewrite in_app_iff. intros [A|[A|[]]]; [exact (N1 A) | apply I; left; congruence].
  - apply IH; [exact N2 | intro A; apply I; right; exact A].
Qed.

Definition pending_op (p : mpc) : option op := match p with Called o | Locked o | Using o => Some o | _ => None end.
Definition hinv (evs : list mevent) (s : cmap) (l : list (nat * op * ret)) : Prop :=
  data s = content (fun _ => None) l /\
  legal (fun _ => None) l /\
  NoDup (ids l) /\
  (forall id o, pending_op (mpcs s id) = Some o -> In (Inv id o) (history evs) /\ ~ In id (ids l)) /\
  (forall id o r, mpcs s id = Used o r \/ mpcs s id = Unlocked o r -> In (id, o, r) l) /\
  (forall id, mpcs s id = Fresh -> ~ In id (ids l)) /\
  (forall id r, In (Resp id r) (history evs) -> exists o, In (id, o, r) l) /\
  (forall id o r, In (id, o, r) l -> In (Inv id o) (history evs)).

Lemma hinv_step : forall evs s l e s' l', hinv evs s l -> mstep s e = Some (s', l') -> hinv (evs ++ [e]) s' (l ++ l').
Proof.
  intros evs s l e s' l' [J1 [J2 [J3 [J4 [J5 [J6 [J7 J8]]]]]]] E.
  assert (KEEP : forall id p, l' = [] -> data s' = data s -> mpcs s' = set_mpc (mpcs s) id p ->
    (match e with MRespond _ _ => False | _ => True end) ->
    (forall o, pending_op p = Some o -> In (Inv id o) (history (evs ++ [e])) /\ ~ In id (ids l)) ->
    (forall o r, p = Used o r \/ p = Unlocked o r -> In (id, o, r) l) -> p <> Fresh -> hinv (evs ++ [e]) s' (l ++ l')).
  { intros id p -> D M NR A B F. rewrite app_nil_r. unfold hinv. rewrite D, M.
    assert (INC : forall x, In x (history evs) -> In x (history (evs ++ [e]))) by (intros x X; rewrite history_snoc; apply in_or_app; left; exact X).
    split; [exact J1|]. split; [exact J2|]. split; [exact J3|].
    split; [intros i o; mpc_case i id; [apply A | intro X; destruct (J4 i o X) as [Y1 Y2]; split; [apply INC; exact Y1 | exact Y2]]|].
    split; [intros i o r; mpc_case i id; [apply B | apply J5]|].
    split; [intros i; mpc_case i id; [intro X; destruct (F X) | apply J6]|].
    split; [intros i r X; apply (J7 i r); rewrite history_snoc in X; apply in_app_or in X; destruct X as [X|X]; [exact X|];
      destruct e; cbn [In] in X; try destruct NR; (destruct X as [X|[]] || destruct X); discriminate X|].
    intros i o r X. apply INC. exact (J8 i o r X). }
  destruct e as [id o|id|id|id|id|id r]; cbn [mstep] in E.
  - destruct (mpcs s id) eqn:P; try discriminate E. injection E as <- <-. apply (KEEP id (Called o)); try reflexivity.
    + intros o' X. injection X as <-. split; [rewrite history_snoc; apply in_or_app; right; left; reflexivity | apply J6; exact P].
    + intros o' r [X|X]; discriminate X.
    + discriminate.
  - destruct (mpcs s id) as [|o| | | | |] eqn:P; try discriminate E.
    assert (K : l' = [] /\ data s' = data s /\ mpcs s' = set_mpc (mpcs s) id (Locked o)).
    { destruct o as [k|k v]; destruct (wlock s); try discriminate E.
      - injection E as <- <-. repeat split.
      - destruct (rlocks s); [|discriminate E]. injection E as <- <-. repeat split. }
    destruct K as [K1 [K2 K3]]. apply (KEEP id (Locked o)); try assumption.
    + exact I.
    + intros o' X. injection X as <-. destruct (J4 id o) as [A B]; [rewrite P; reflexivity|]. split; [|exact B].
      rewrite history_snoc. apply in_or_app; left; exact A.
    + intros o' r [X|X]; discriminate X.
    + discriminate.
  - destruct (mpcs s id) as [| |o| | | |] eqn:P; try discriminate E. injection E as <- <-. apply (KEEP id (Using o)); try reflexivity.
    + intros o' X. injection X as <-. destruct (J4 id o) as [A B]; [rewrite P; reflexivity|]. split; [|exact B].
      rewrite history_snoc. apply in_or_app; left; exact A.
    + intros o' r [X|X]; discriminate X.
    + discriminate.
  - destruct (mpcs s id) as [| | |o| | |] eqn:P; try discriminate E. destruct (access (data s) o) as [d r] eqn:AC.
    injection E as <- <-. destruct (J4 id o) as [A B]; [rewrite P; reflexivity|].
    unfold hinv. rewrite history_snoc, app_nil_r. cbn [data mpcs]. rewrite content_app, legal_app, <- J1.
    split; [|split; [|split; [|split; [|split; [|split; [|split]]]]]].
    + destruct o; injection AC as <- <-; reflexivity.
    + split; [exact J2|]. destruct o; injection AC as <- <-; cbn [legal]; repeat split.
    + unfold ids. rewrite map_app. cbn [map fst]. apply nodup_snoc; assumption.
    + intros i o'. mpc_case i id; [discriminate|]. intro X. destruct (J4 i o' X) as [Y1 Y2]. split; [exact Y1|].
      unfold ids. rewrite map_app, in_app_iff. cbn [map fst In]. intros [Z|[Z|[]]]; [exact (Y2 Z) | congruence].
    + intros i o' r'. mpc_case i id.
      * intros [X|X]; [|discriminate X]. injection X as <- <-. apply in_or_app; right; left; reflexivity.
      * intro X. apply in_or_app; left. exact (J5 i o' r' X).
    + intro i. mpc_case i id; [discriminate|]. intros X. unfold ids. rewrite map_app, in_app_iff. cbn [map fst In].
      intros [Z|[Z|[]]]; [exact (J6 i X Z) | congruence].
    + intros i r' X. destruct (J7 i r' X) as [o' Y]. exists o'. apply in_or_app; left; exact Y.
    + intros i o' r' X. apply in_app_or in X. destruct X as [X|[X|[]]]; [exact (J8 i o' r' X)|].
      injection X as <- <- <-. exact A.
  - destruct (mpcs s id) as [| | | |o r| |] eqn:P; try discriminate E.
    assert (K : l' = [] /\ data s' = data s /\ mpcs s' = set_mpc (mpcs s) id (Unlocked o r)).
    { destruct o as [k|k v]; injection E as <- <-; repeat split. }
    destruct K as [K1 [K2 K3]]. apply (KEEP id (Unlocked o r)); try assumption.
    + exact I.
    + intros o' X. discriminate X.
    + intros o' r' [X|X]; [discriminate X|]. injection X as <- <-. apply J5. left; exact P.
    + discriminate.
  - destruct (mpcs s id) as [| | | | |o r'|] eqn:P; try discriminate E.
    assert (Y : r' = r /\ l' = [] /\ s' = mkMap (rlocks s) (wlock s) (data s) (crashed s) (set_mpc (mpcs s) id Over) (inuse s)).
    { destruct r as [a|], r' as [b|]; try discriminate E; [|injection E as <- <-; repeat split].
      destruct a as [x|], b as [y|]; try discriminate E; [|injection E as <- <-; repeat split].
      destruct (Z.eqb_spec x y) as [->|]; [injection E as <- <-; repeat split | discriminate E]. }
    destruct Y as [-> [-> ->]]. rewrite app_nil_r. unfold hinv. rewrite history_snoc. cbn [data mpcs].
    split; [exact J1|]. split; [exact J2|]. split; [exact J3|].
    split; [intros i o'; mpc_case i id; [discriminate|]; intro X; destruct (J4 i o' X) as [Y1 Y2]; split; [apply in_or_app; left; exact Y1 | exact Y2]|].
    split; [intros i o' r'; mpc_case i id; [intros [X|X]; discriminate X | apply J5]|].
    split; [intros i; mpc_case i id; [discriminate | apply J6]|].
    split.
    + intros i r' X. apply in_app_or in X. destruct X as [X|[X|[]]]; [exact (J7 i r' X)|]. injection X as <- <-.
      exists o. apply J5. right; exact P.
    + intros i o' r' X. apply in_or_app; left. exact (J8 i o' r' X).
Qed.

Lemma hinv_runs : forall evs s l, mruns NewMap evs = Some (s, l) -> hinv evs s l.
Proof.
  induction evs as [|e evs IH] using rev_ind; intros s l R.
  - injection R as <- <-. unfold hinv, NewMap. cbn [data mpcs pending_op ids map In history flat_map legal content].
    split; [reflexivity|]. split; [exact I|]. split; [constructor|]. split; [discriminate|].
    split; [intros id o r [X|X]; discriminate X|]. split; [auto|]. split; [intros id r []|intros id o r []].
  - rewrite mruns_snoc in R. destruct (mruns NewMap evs) as [[s0 l0]|]; [|discriminate R].
    destruct (mstep s0 e) as [[s1 l1]|] eqn:E; [|discriminate R]. injection R as <- <-.
    exact (hinv_step _ _ _ _ _ _ (IH _ _ eq_refl) E).
Qed.

(** A history split at a call comes from a trace split there. *)
Lemma history_split : forall evs h1 j o h2, history evs = h1 ++ Inv j o :: h2 ->
  exists a b, evs = a ++ MInvoke j o :: b /\ history a = h1 /\ history b = h2.
Proof.
  induction evs as [|e evs IH]; intros h1 j o h2 H; [destruct h1; discriminate H|].
  change (history ([e] ++ evs) = h1 ++ Inv j o :: h2) in H. rewrite history_app in H.
  destruct e as [id p|id|id|id|id|id r]; cbn [history flat_map app] in H.
  - destruct h1 as [|x h1].
    + injection H as -> -> H. exists [], evs. repeat split; assumption.
    + injection H as <- H. destruct (IH _ _ _ _ H) as [a [b [A [B C]]]]. exists (MInvoke id p :: a), b.
      subst evs. split; [reflexivity|]. split; [change (Inv id p :: history a = Inv id p :: h1); congruence | exact C].
  - destruct (IH _ _ _ _ H) as [a [b [A [B C]]]]. exists (MLock id :: a), b. subst evs. repeat split; assumption.
  - destruct (IH _ _ _ _ H) as [a [b [A [B C]]]]. exists (MBegin id :: a), b. subst evs. repeat split; assumption.
  - destruct (IH _ _ _ _ H) as [a [b [A [B C]]]]. exists (MEnd id :: a), b. subst evs. repeat split; assumption.
  - destruct (IH _ _ _ _ H) as [a [b [A [B C]]]]. exists (MUnlock id :: a), b. subst evs. repeat split; assumption.
  - destruct h1 as [|x h1]; [discriminate H|].
    injection H as <- H. destruct (IH _ _ _ _ H) as [a [b [A [B C]]]]. exists (MRespond id r :: a), b.
    subst evs. split; [reflexivity|]. split; [change (Resp id r :: history a = Resp id r :: h1); congruence | exact C].
Qed.

Lemma map_linearizable : forall evs s l, mruns NewMap evs = Some (s, l) -> linearizable (history evs).
Proof.
  intros evs s l R. destruct (hinv_runs _ _ _ R) as [J1 [J2 [J3 [J4 [J5 [J6 [J7 J8]]]]]]].
  exists l. split; [exact J3|]. split; [exact J2|]. split; [exact J7|]. split; [exact J8|].
  intros ha i r hb j o hc H JN.
  change (ha ++ Resp i r :: hb ++ Inv j o :: hc) with (ha ++ (Resp i r :: hb) ++ Inv j o :: hc) in H.
  rewrite app_assoc in H. destruct (history_split _ _ _ _ _ H) as [a [b [A [B C]]]]. subst evs.
  rewrite mruns_app in R. destruct (mruns NewMap a) as [[s1 l1]|] eqn:R1; [|discriminate R].
  destruct (mruns s1 (MInvoke j o :: b)) as [[s2 l2]|] eqn:R2; [|discriminate R]. injection R as <- <-.
  destruct (hinv_runs _ _ _ R1) as [_ [_ [_ [_ [_ [K6 [K7 _]]]]]]].
  destruct (K7 i r) as [oi X]; [rewrite B; apply in_or_app; right; left; reflexivity|].
  assert (F : mpcs s1 j = Fresh).
  { cbn [mruns mstep] in R2. destruct (mpcs s1 j); try discriminate R2. reflexivity. }
  unfold ids in JN. rewrite map_app in JN. apply in_app_or in JN. destruct JN as [JN|JN]; [destruct (K6 j F JN)|].
  apply in_map_iff in JN. destruct JN as [y [Y1 Y2]].
  apply in_split in X. destruct X as [x1 [x2 X]]. apply in_split in Y2. destruct Y2 as [y1 [y2 Y]].
  exists x1, (i, oi, r), (x2 ++ y1), y, y2. split; [|split; [reflexivity | exact Y1]].
  rewrite X, Y. rewrite <- !app_assoc. reflexivity.
Qed.
