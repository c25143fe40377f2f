(** Proofs for C141. *)
From Verif Require Import Base ExecHookModel ExecHookSpec.
Open Scope list_scope.

Lemma tid_dec : forall a b : tid, {a = b} + {a <> b}.
Proof. decide equality; apply Nat.eq_dec. Qed.
Definition inner (f : frame) : bool := match f with FRun _ | FPanic _ | FEnd _ | FEndIn _ => false | _ => true end.
Definition below (f : frame) : bool := match f with FRun _ | FPanic _ | FInfo => true | _ => false end.
(** What a goroutine can be in *)
Definition wf (t : tid) (st : list frame) : Prop :=
  forallb below (tl st) = true /\ match t with U _ => forallb inner st = true | G _ => st = [] \/ exists fs b, st = fs ++ [b] /\ forallb inner fs = true /\ inner b = false end.
Definition holder (f : frame) : bool := match f with FGoIn _ | FCheckIn | FEndIn _ | FInfo => true | _ => false end.
Lemma holds_cons : forall f r, holds (f :: r) = holder f || holds r.
Proof. intros [] r; reflexivity. Qed.
Fixpoint single (st : list frame) : Prop := match st with [] => True | f :: r => (holder f = true -> holds r = false) /\ single r end.
Lemma started_base : forall fs b, forallb inner fs = true -> inner b = false -> started (fs ++ [b]) = started [b].
Proof.
  induction fs as [|f fs IH]; intros b F B; [reflexivity|]. cbn in F. apply andb_true_iff in F. destruct F as [F1 F2]. rewrite <- (IH b F2 B). cbn [app]. destruct f; try discriminate F1; cbn; destruct (fs ++ [b]) eqn:X; try reflexivity; destruct fs; discriminate X.
Qed.
Lemma started_cons : forall f r, r <> [] -> started (f :: r) = started r.
Proof. intros f r N. destruct r as [|g r]; [contradiction|]. destruct f; reflexivity. Qed.
Definition hit (loc : nat) (st : list frame) : bool := match started st with Some l => (l =? loc)%nat | None => false end.
Definition num (b : bool) : Z := if b then 1 else 0.
Lemma put_nth_length : forall l n st, List.length (put_nth l n st) = List.length l.
Proof. induction l as [|x l IH]; intros [|n] st; cbn; auto. Qed.
Lemma put_nth_same : forall l n st, (n < List.length l)%nat -> nth n (put_nth l n st) [] = st.
Proof. induction l as [|x l IH]; intros [|n] st L; cbn in *; try lia; auto. apply IH. lia. Qed.
Lemma put_nth_other : forall l n m st, n <> m -> nth m (put_nth l n st) [] = nth m l [].
Proof. induction l as [|x l IH]; intros [|n] [|m] st N; cbn; auto; try contradiction. Qed.
Lemma put_nth_count : forall loc l n st, (n < List.length l)%nat ->
  Z.of_nat (List.length (filter (hit loc) (put_nth l n st))) = Z.of_nat (List.length (filter (hit loc) l)) - num (hit loc (nth n l [])) + num (hit loc st).
Proof.
  intros loc. induction l as [|x l IH]; intros [|n] st L; cbn in *; try lia.
  - destruct (hit loc x), (hit loc st); cbn [List.length num]; lia.
  - specialize (IH n st ltac:(lia)). destruct (hit loc x); cbn [List.length]; lia.
Qed.
Lemma stack_len : forall s n, stack s (G n) <> [] -> (n < List.length (gor s))%nat.
Proof. intros s n H. cbn in H. destruct (Nat.lt_ge_cases n (List.length (gor s))) as [L|L]; [exact L|]. rewrite nth_overflow in H; [contradiction|exact L]. Qed.
Lemma put_same : forall s t st, match t with U _ => True | G n => stack s t <> [] end -> stack (put s t st) t = st.
Proof. intros s [n|n] st H; cbn; [rewrite Nat.eqb_refl; reflexivity|]. apply put_nth_same. exact (stack_len _ _ H). Qed.
Lemma put_other : forall s t st t', t <> t' -> stack (put s t st) t' = stack s t'.
Proof.
  intros s [n|n] st [m|m] N; cbn; try reflexivity.
  - destruct (Nat.eqb_spec m n) as [->|]; [contradiction|reflexivity].
  - apply put_nth_other. congruence.
Qed.
Lemma get_bump : forall m k d k', get (bump m k d) k' = get m k' + (if (k =? k')%nat then d else 0).
Proof.
  induction m as [|[k0 v] m IH]; intros k d k'; cbn; [destruct (k =? k')%nat; lia|]. destruct (Nat.eqb_spec k0 k) as [->|N]; cbn.
  - destruct (k =? k')%nat; lia.
  - rewrite IH. destruct (Nat.eqb_spec k0 k') as [->|]; [|reflexivity]. destruct (Nat.eqb_spec k k'); [congruence|lia].
Qed.
Record inv (s : state) : Prop := {
  i_lock : forall t, lock s = Some t <-> holds (stack s t) = true;
  i_wf : forall t, wf t (stack s t);
  i_single : forall t, single (stack s t);
  i_counts : forall loc, get (counts s) loc = Z.of_nat (alive s loc)
}.
Lemma change : forall s t st s', inv s -> match t with U _ => True | G n => stack s t <> [] end -> wf t st -> single st ->
  lock s' = (if holds st then Some t else if holds (stack s t) then None else lock s) -> (holds st = true -> lock s = None \/ lock s = Some t) ->
  (forall loc, get (counts s') loc = get (counts s) loc + match t with G _ => num (hit loc st) - num (hit loc (stack s t)) | U _ => 0 end) ->
  gor s' = gor (put s t st) -> usr s' = usr (put s t st) -> inv s'.
Proof.
  intros s t st s' [Il Iw Is Ic] V W Si L Ex C Eg Eu.
  assert (St : forall t', stack s' t' = stack (put s t st) t') by (intros [n|n]; cbn [stack]; [rewrite Eu|rewrite Eg]; reflexivity).
  split.
  - intro t'. rewrite St, L. destruct (tid_dec t t') as [<-|N].
    + rewrite (put_same _ _ _ V). destruct (holds st); [split; reflexivity|]. destruct (holds (stack s t)) eqn:H; [split; discriminate|]. split; [|discriminate]. intro X. apply Il in X. congruence.
    + rewrite (put_other _ _ _ _ N). rewrite <- Il. destruct (holds st).
      * destruct (Ex eq_refl) as [-> | ->]; split; congruence.
      * destruct (holds (stack s t)) eqn:H; [|reflexivity]. apply Il in H. rewrite H. split; congruence.
  - intro t'. rewrite St. destruct (tid_dec t t') as [<-|N]; [rewrite (put_same _ _ _ V); exact W|rewrite (put_other _ _ _ _ N); apply Iw].
  - intro t'. rewrite St. destruct (tid_dec t t') as [<-|N]; [rewrite (put_same _ _ _ V); exact Si|rewrite (put_other _ _ _ _ N); apply Is].
  - intro loc. rewrite C, Ic. unfold alive. rewrite Eg. destruct t as [n|n]; cbn [put gor]; [lia|]. fold (hit loc). change (fun st0 => match started st0 with Some l => (l =? loc)%nat | None => false end) with (hit loc).
    rewrite (put_nth_count loc _ n st (stack_len _ _ V)). cbn [stack]. lia.
Qed.
Lemma spawn_inv : forall s loc, inv s -> inv (spawn (setCounts s (bump (counts s) loc 1)) loc).
Proof.
  intros s loc [Il Iw Is Ic].
  assert (St : forall t, stack (spawn (setCounts s (bump (counts s) loc 1)) loc) t = stack s t \/ (stack (spawn (setCounts s (bump (counts s) loc 1)) loc) t = [FRun loc] /\ stack s t = [] /\ exists n, t = G n)).
  { intros [n|n]; [left; reflexivity|]. cbn. destruct (Nat.lt_ge_cases n (List.length (gor s))) as [L|L]; [left; apply app_nth1; exact L|]. rewrite app_nth2 by exact L. rewrite (nth_overflow (gor s)) by exact L.
    destruct (n - List.length (gor s))%nat as [|[|k]]; cbn; eauto. }
  split.
  - intro t. cbn [lock spawn setCounts]. rewrite Il. destruct (St t) as [->|(-> & -> & _)]; [reflexivity|]. cbn. split; discriminate.
  - intro t. destruct (St t) as [->|(-> & _ & n & ->)]; [apply Iw|]. split; [reflexivity|]. right. exists [], (FRun loc). auto.
  - intro t. destruct (St t) as [->|(-> & _)]; [apply Is|]. cbn. auto using diff_false_true.
  - intro k. cbn [counts spawn setCounts]. rewrite get_bump, Ic. unfold alive. cbn [gor spawn setCounts]. rewrite filter_app, app_length. cbn. destruct (loc =? k)%nat; cbn; lia.
Qed.
Lemma crash_inv : forall s, inv s -> inv (crash s).
Proof. intros s [A B C D]. split; [intros t; exact (A t)|intros t; exact (B t)|intros t; exact (C t)|exact D]. Qed.
(** Frames above others *)
Lemma wf_push : forall t f r, wf t r -> inner f = true -> match r with [] => match t with U _ => True | G _ => False end | g :: _ => below g = true end -> wf t (f :: r).
Proof.
  intros t f r [W1 W2] F B. split; cbn [tl].
  - destruct r as [|g r]; [reflexivity|]. cbn in *. rewrite B, W1. reflexivity.
  - destruct t as [n|n]; [cbn; rewrite F; exact W2|]. right. destruct W2 as [->|(fs & b & -> & F1 & F2)]; [contradiction|]. exists (f :: fs), b. cbn. rewrite F. auto.
Qed.
Lemma wf_top : forall t f g r, wf t (f :: r) -> inner f = inner g -> wf t (g :: r).
Proof.
  intros t f g r [W1 W2] E. split; [exact W1|]. destruct t as [n|n]; [cbn in *; rewrite <- E; exact W2|]. right. destruct W2 as [X|(fs & b & X & F1 & F2)]; [discriminate X|]. destruct fs as [|h fs]; cbn in X.
  - injection X as -> ->. exists [], g. rewrite <- E. auto.
  - injection X as -> ->. exists (g :: fs), b. cbn in *. rewrite <- E. auto.
Qed.
Lemma wf_pop : forall t f r, wf t (f :: r) -> inner f = true -> wf t r /\ (match t with U _ => True | G _ => r <> [] end).
Proof.
  intros t f r [W1 W2] F. cbn [tl] in W1. assert (T : forallb below (tl r) = true) by (destruct r; [reflexivity|]; cbn in W1; apply andb_true_iff in W1; tauto). destruct t as [n|n].
  - cbn in W2. rewrite F in W2. split; [split; assumption|exact Logic.I].
  - destruct W2 as [X|(fs & b & X & F1 & F2)]; [discriminate X|]. destruct fs as [|h fs]; cbn in X; injection X as -> ->; [congruence|]. cbn in F1. apply andb_true_iff in F1. destruct F1 as [_ F1].
    split; [split; [exact T|right; exists fs, b; auto]|]. destruct fs; discriminate.
Qed.
Lemma wf_base : forall t f r, wf t (f :: r) -> inner f = false -> r = [] /\ exists n, t = G n.
Proof.
  intros t f r [W1 W2] F. destruct t as [n|n]; [cbn in W2; rewrite F in W2; discriminate W2|]. destruct W2 as [X|(fs & b & X & F1 & F2)]; [discriminate X|]. destruct fs as [|h fs]; cbn in X; injection X as -> ->; [eauto|].
  cbn in F1. rewrite F in F1. discriminate F1.
Qed.
Lemma hit_push : forall loc f r, r <> [] -> hit loc (f :: r) = hit loc r.
Proof. intros loc f r N. unfold hit. rewrite (started_cons _ _ N). reflexivity. Qed.
Lemma hit_top : forall t loc f g r, wf t (f :: r) -> inner f = true -> match t with U _ => True | G _ => hit loc (g :: r) = hit loc (f :: r) end.
Proof. intros [n|n] loc f g r W F; [exact Logic.I|]. destruct (wf_pop _ _ _ W F) as [_ N]. rewrite !hit_push by exact N. reflexivity. Qed.
Lemma inv_step : forall s e s', inv s -> step s e = Some s' -> inv s'.
Proof.
  intros s e s' Hi E. unfold step in E. destruct (crashed s); [discriminate E|]. assert (Iw := i_wf s Hi). assert (Il := i_lock s Hi). assert (Is := i_single s Hi).
  destruct e as [t c|t|t p|t|t].
  - set (f := match c with KGo loc => FGo loc | KCheck => FCheck end) in *. assert (Ff : inner f = true /\ holder f = false) by (destruct c; split; reflexivity). destruct Ff as [F1 F2].
    assert (K : match stack s t with [] => match t with U _ => True | G _ => False end | g :: _ => below g = true end -> s' = put s t (f :: stack s t) -> inv s').
    { intros B ->. apply (change s t (f :: stack s t)); try reflexivity; try exact Hi.
      - destruct t; [exact Logic.I|]. intro X. rewrite X in B. exact B.
      - apply wf_push; [apply Iw|exact F1|exact B].
      - cbn. split; [congruence|apply Is].
      - rewrite holds_cons, F2. cbn [orb]. destruct t; cbn [lock put]; (destruct (holds _) eqn:H; [apply Il in H; exact H|reflexivity]).
      - rewrite holds_cons, F2. cbn [orb]. intro H. right. apply Il. exact H.
      - intro loc. destruct t as [n|n]; cbn [put counts]; [lia|]. rewrite hit_push; [lia|]. intro X. rewrite X in B. exact B. }
    destruct (stack s t) as [|g r] eqn:Q.
    + destruct t; [|discriminate E]. injection E as <-. apply K; [exact Logic.I|reflexivity].
    + destruct g; try discriminate E; injection E as <-; apply K; reflexivity.
  - assert (Wt := Iw t). assert (St := Is t). destruct (stack s t) as [|g r] eqn:Q; [discriminate E|].
    assert (V : match t with U _ => True | G n => stack s t <> [] end) by (destruct t; [exact Logic.I|rewrite Q; discriminate]).
    assert (Acq : forall f', lock s = None -> inner g = inner f' -> holder g = false -> holder f' = true -> (forall loc, match t with U _ => True | G _ => hit loc (f' :: r) = hit loc (g :: r) end) -> inv (setLock (put s t (f' :: r)) (Some t))).
    { intros f' Ln E1 E2 E3 Hh. assert (Hr : holds r = false) by (destruct (holds r) eqn:H; [|reflexivity]; assert (X : lock s = Some t) by (apply Il; rewrite Q, holds_cons, H; apply orb_true_r); congruence).
      apply (change s t (f' :: r)); try reflexivity; try exact Hi; try exact V.
      - exact (wf_top _ _ _ _ Wt E1).
      - cbn in *. split; [intros _; exact Hr|tauto].
      - cbn [lock setLock]. rewrite holds_cons, E3. reflexivity.
      - intros _. left. exact Ln.
      - intro loc. specialize (Hh loc). destruct t as [n|n]; cbn [put setLock counts]; [lia|]. rewrite Q, Hh. lia. }
    assert (Pop : inner g = true -> holder g = true -> inv (setLock (put s t r) None)).
    { intros E1 E2. cbn in St. destruct St as [Sh Sr]. specialize (Sh E2). destruct (wf_pop _ _ _ Wt E1) as [Wr Nr].
      apply (change s t r); try reflexivity; try exact Hi; try exact V; try assumption.
      - cbn [lock setLock]. rewrite Sh, Q, holds_cons, E2. reflexivity.
      - rewrite Sh. discriminate.
      - intro loc. destruct t as [n|n]; cbn [put setLock counts]; [lia|]. rewrite Q, (hit_push _ _ _ Nr). lia. }
    destruct g; try discriminate E.
    + destruct (lock s) eqn:Ln; [discriminate E|]. injection E as <-. apply Acq; try reflexivity. intro l0. destruct (wf_base _ _ _ Wt eq_refl) as [-> [n ->]]. reflexivity.
    + injection E as <-. destruct (wf_base _ _ _ Wt eq_refl) as [-> [n ->]]. apply (change s (G n) []); try reflexivity; try exact Hi; try exact V.
      * split; [reflexivity|left; reflexivity].
      * cbn [lock setLock]. rewrite Q. reflexivity.
      * discriminate.
      * intro l0. cbn [counts setLock setCounts]. rewrite get_bump, Q. unfold hit. cbn. destruct (loc =? l0)%nat; cbn; lia.
    + destruct (lock s) eqn:Ln; [discriminate E|]. injection E as <-. apply Acq; try reflexivity. intro l0. exact (hit_top t l0 _ _ _ Wt eq_refl).
    + injection E as <-. assert (X := spawn_inv _ loc (Pop eq_refl eq_refl)). destruct t; exact X.
    + destruct (lock s) eqn:Ln; [discriminate E|]. injection E as <-. apply Acq; try reflexivity. intro l0. exact (hit_top t l0 _ _ _ Wt eq_refl).
    + destruct (existsb _ (counts s)); injection E as <-.
      * cbn in St. destruct St as [Sh Sr]. specialize (Sh eq_refl). apply (change s t (FInfo :: r)); try exact Hi; try exact V.
        -- eapply wf_top; [exact Wt|reflexivity].
        -- cbn. auto.
        -- cbn [holds]. assert (X : lock s = Some t) by (apply Il; rewrite Q; reflexivity). destruct t; exact X.
        -- intros _. right. apply Il. rewrite Q. reflexivity.
        -- intro l0. assert (X := hit_top t l0 _ FInfo _ Wt eq_refl). destruct t as [n|n]; cbn [put counts]; [lia|]. rewrite Q, X. lia.
        -- reflexivity.
        -- reflexivity.
      * specialize (Pop eq_refl eq_refl). destruct Pop as [A B C D]. split; [intros t0; assert (X := A t0)|intros t0; assert (X := B t0)|intros t0; assert (X := C t0)|intros l0; assert (X := D l0)]; destruct t; try destruct t0; exact X.
  - assert (Wt := Iw t). destruct (stack s t) as [|g r] eqn:Q; [discriminate E|]. destruct g; try discriminate E. injection E as <-. destruct (wf_base _ _ _ Wt eq_refl) as [-> [n ->]].
    apply (change s (G n) [if p then FPanic loc else FEnd loc]); try reflexivity; try exact Hi.
    + rewrite Q. discriminate.
    + apply (wf_top _ (FRun loc)); [exact Wt|destruct p; reflexivity].
    + cbn. destruct p; cbn; auto using diff_false_true.
    + rewrite Q. destruct p; reflexivity.
    + destruct p; discriminate.
    + intro l0. rewrite Q. destruct p; cbn [put counts]; unfold hit; cbn; lia.
  - assert (Wt := Iw t). assert (St := Is t). destruct (stack s t) as [|g r] eqn:Q; [discriminate E|].
    assert (V : match t with U _ => True | G n => stack s t <> [] end) by (destruct t; [exact Logic.I|rewrite Q; discriminate]). destruct g; try discriminate E; injection E as <-.
    + destruct (wf_base _ _ _ Wt eq_refl) as [-> [n ->]]. apply (change s (G n) [FEnd loc]); try reflexivity; try exact Hi; try exact V.
      * eapply wf_top; [exact Wt|reflexivity].
      * cbn. auto using diff_false_true.
      * rewrite Q. reflexivity.
      * discriminate.
      * intro l0. rewrite Q. cbn [put counts]. unfold hit. cbn. lia.
    + cbn in St. destruct St as [Sh Sr]. specialize (Sh eq_refl). destruct (wf_pop _ _ _ Wt eq_refl) as [Wr Nr]. apply (change s t r); try exact Hi; try exact V; try assumption.
      * cbn [lock setLock]. rewrite Sh, Q. reflexivity.
      * rewrite Sh. discriminate.
      * intro l0. destruct t as [n|n]; cbn [put setLock answer counts]; [lia|]. rewrite Q, (hit_push _ _ _ Nr). lia.
      * destruct t; reflexivity.
      * destruct t; reflexivity.
  - assert (Wt := Iw t). assert (St := Is t). destruct (stack s t) as [|g r] eqn:Q; [discriminate E|].
    assert (V : match t with U _ => True | G n => stack s t <> [] end) by (destruct t; [exact Logic.I|rewrite Q; discriminate]). destruct g; try discriminate E; [injection E as <-; exact (crash_inv _ Hi)|].
    cbn in St. destruct St as [Sh Sr]. specialize (Sh eq_refl). destruct (wf_pop _ _ _ Wt eq_refl) as [Wr Nr]. destruct r as [|h r].
    + injection E as <-. destruct t as [n|n]; [|contradiction]. apply (change s (U n) []); try reflexivity; try exact Hi; try exact V; try assumption.
      * cbn [lock setLock]. rewrite Q. reflexivity.
      * discriminate.
      * intro l0. cbn [put setLock counts]. lia.
    + destruct h; try (injection E as <-; exact (crash_inv _ Hi)). injection E as <-. destruct (wf_base _ _ _ Wr eq_refl) as [-> [n ->]]. apply (change s (G n) [FPanic loc]); try reflexivity; try exact Hi; try exact V.
      * eapply wf_top; [exact Wr|reflexivity].
      * cbn. auto using diff_false_true.
      * cbn [lock setLock]. rewrite Q. reflexivity.
      * discriminate.
      * intro l0. rewrite Q. cbn [put setLock counts]. unfold hit. cbn. lia.
Qed.
Lemma inv_init : inv init.
Proof.
  assert (S0 : forall t, stack init t = []) by (intros [n|n]; [reflexivity|destruct n; reflexivity]). split.
  - intro t. rewrite S0. split; discriminate.
  - intro t. rewrite S0. split; [reflexivity|]. destruct t; [reflexivity|left; reflexivity].
  - intro t. rewrite S0. exact Logic.I.
  - intro loc. reflexivity.
Qed.
Lemma inv_run_from : forall evs s s', inv s -> run s evs = Some s' -> inv s'.
Proof. induction evs as [|e evs IH]; intros s s' Hi R; cbn [run] in R; [injection R as <-; exact Hi|]. destruct (step s e) as [s1|] eqn:E; [|discriminate R]. exact (IH _ _ (inv_step _ _ _ Hi E) R). Qed.
Lemma inv_run : forall evs s, run init evs = Some s -> inv s.
Proof. intros evs s. exact (inv_run_from _ _ _ inv_init). Qed.
Lemma put_lock : forall s t st, lock (put s t st) = lock s. Proof. intros s [] st; reflexivity. Qed.
Lemma put_counts : forall s t st, counts (put s t st) = counts s. Proof. intros s [] st; reflexivity. Qed.
Lemma put_results : forall s t st, results (put s t st) = results s. Proof. intros s [] st; reflexivity. Qed.
Lemma put_crashed : forall s t st, crashed (put s t st) = crashed s. Proof. intros s [] st; reflexivity. Qed.
Lemma no_self : forall A (x : A) l, l <> x :: l.
Proof. intros A x l H. apply (f_equal (@List.length A)) in H. cbn in H. lia. Qed.
(** * The keys of the map *)
Definition keys (m : list (nat * Z)) : list nat := map fst m.
Lemma bump_keys : forall m k d, (keys (bump m k d) = keys m /\ In k (keys m)) \/ (keys (bump m k d) = keys m ++ [k] /\ ~ In k (keys m)).
Proof.
  induction m as [|[k0 v] m IH]; intros k d; cbn; [right; auto|]. destruct (Nat.eqb_spec k0 k) as [->|N]; [left; auto|]. cbn. destruct (IH k d) as [[E H]|[E H]]; unfold keys in *; rewrite E; [left; auto|right; split; [reflexivity|tauto]].
Qed.
Lemma bump_nodup : forall m k d, NoDup (keys m) -> NoDup (keys (bump m k d)).
Proof. intros m k d H. destruct (bump_keys m k d) as [[-> _]|[-> N]]; [exact H|]. apply NoDup_rev in H. rewrite <- (rev_involutive (keys m ++ [k])). apply NoDup_rev. rewrite rev_app_distr. cbn. constructor; [rewrite <- in_rev; exact N|exact H]. Qed.
Lemma nodup_step : forall s e s', NoDup (keys (counts s)) -> step s e = Some s' -> NoDup (keys (counts s')).
Proof.
  intros s e s' H E. unfold step in E. destruct (crashed s); [discriminate E|]. destruct e as [t c|t|t p|t|t]; destruct (stack s t) as [|g r]; try discriminate E; try (destruct g; try discriminate E); try (destruct t; try discriminate E);
    try (destruct (lock s); try discriminate E); try (destruct (existsb _ _)); try (destruct r as [|[]]); injection E as <-; cbn; try exact H; apply bump_nodup; exact H.
Qed.
Lemma nodup_run : forall evs s s', NoDup (keys (counts s)) -> run s evs = Some s' -> NoDup (keys (counts s')).
Proof. induction evs as [|e evs IH]; intros s s' H R; cbn [run] in R; [injection R as <-; exact H|]. destruct (step s e) as [s1|] eqn:E; [|discriminate R]. exact (IH _ _ (nodup_step _ _ _ H E) R). Qed.
Lemma get_in : forall m k v, NoDup (keys m) -> In (k, v) m -> get m k = v.
Proof.
  induction m as [|[k0 v0] m IH]; intros k v N I1; [destruct I1|]. cbn in N. inversion N as [|? ? N1 N2]; subst. cbn. destruct I1 as [X|I1]; [injection X as -> ->; rewrite Nat.eqb_refl; reflexivity|].
  destruct (Nat.eqb_spec k0 k) as [->|]; [|exact (IH _ _ N2 I1)]. destruct N1. apply (in_map fst _ _ I1).
Qed.
Lemma get_some : forall m k, 0 < get m k -> existsb (fun x => 0 <? snd x) m = true.
Proof. induction m as [|[k0 v] m IH]; intros k H; cbn in *; [lia|]. destruct (k0 =? k)%nat; [apply orb_true_iff; left; lia|apply orb_true_iff; right; exact (IH _ H)]. Qed.
Lemma alive_in : forall s loc, (0 < alive s loc)%nat <-> exists n, hit loc (stack s (G n)) = true.
Proof.
  intros s loc. unfold alive. change (fun st => match started st with Some l => (l =? loc)%nat | None => false end) with (hit loc). cbn [stack]. split.
  - intro H. destruct (filter (hit loc) (gor s)) as [|x l] eqn:F; [cbn in H; lia|]. assert (I1 : In x (filter (hit loc) (gor s))) by (rewrite F; left; reflexivity). apply filter_In in I1. destruct I1 as [I1 I2].
    destruct (In_nth _ _ [] I1) as (n & _ & X). exists n. rewrite X. exact I2.
  - intros [n H]. destruct (Nat.lt_ge_cases n (List.length (gor s))) as [L|L]; [|rewrite nth_overflow in H by exact L; discriminate H].
    assert (I1 : In (nth n (gor s) []) (filter (hit loc) (gor s))) by (apply filter_In; split; [apply nth_In; exact L|exact H]). destruct (filter (hit loc) (gor s)); [destruct I1|cbn; lia].
Qed.
Lemma started_some : forall n st, wf (G n) st -> st <> [] -> exists l, started st = Some l.
Proof. intros n st [_ [->|(fs & b & -> & F1 & F2)]] N; [contradiction|]. rewrite (started_base _ _ F1 F2). destruct b; try discriminate F2; cbn; eauto. Qed.
Lemma idle_iff : forall s, inv s -> NoDup (keys (counts s)) -> (existsb (fun x => 0 <? snd x) (counts s) = false <-> forall n, stack s (G n) = []).
Proof.
  intros s Hi Nd. split.
  - intros Ex n. destruct (stack s (G n)) as [|f r] eqn:Q; [reflexivity|]. assert (W := i_wf s Hi (G n)). destruct (started_some n (stack s (G n)) W) as [l Hl]; [rewrite Q; discriminate|].
    assert (A : (0 < alive s l)%nat) by (apply alive_in; exists n; unfold hit; rewrite Hl; apply Nat.eqb_refl). rewrite (get_some (counts s) l) in Ex; [discriminate Ex|]. rewrite (i_counts s Hi). lia.
  - intro F. destruct (existsb _ (counts s)) eqn:X; [|reflexivity]. apply existsb_exists in X. destruct X as ([k v] & I1 & V). cbn in V. assert (Gv := get_in _ _ _ Nd I1). rewrite (i_counts s Hi) in Gv.
    assert (A : (0 < alive s k)%nat) by lia. apply alive_in in A. destruct A as [n A]. rewrite F in A. discriminate A.
Qed.
(** * A call out of LogInfo *)
Lemma reentered_top : forall s t, inv s -> reentered (stack s t) -> exists f r, stack s t = f :: r /\ holds r = true /\ (f = FCheck \/ exists loc, f = FGo loc).
Proof.
  intros s t Hi Re. unfold reentered in Re. assert (W := i_wf s Hi t). assert (Si := i_single s Hi t). destruct (stack s t) as [|f r]; [destruct Re|]. cbn [tl] in Re. exists f, r. split; [reflexivity|].
  assert (Hr : holds r = true). { clear W Si. induction r as [|g r IH]; [destruct Re|]. rewrite holds_cons. destruct Re as [->|Re]; [reflexivity|]. rewrite (IH Re). apply orb_true_r. }
  split; [exact Hr|]. cbn in Si. destruct Si as [Sh _]. destruct f; try (left; reflexivity); try (right; eexists; reflexivity); try (rewrite (Sh eq_refl) in Hr; discriminate Hr);
    destruct (wf_base _ _ _ W eq_refl) as [-> _]; destruct Re.
Qed.
Lemma stuck_step : forall s t e s', inv s -> reentered (stack s t) -> step s e = Some s' -> lock s' = Some t /\ counts s' = counts s /\ results s' = results s /\ stack s' t = stack s t /\ List.length (gor s') = List.length (gor s).
Proof.
  intros s t e s' Hi Re E. destruct (reentered_top _ _ Hi Re) as (f & r & Q & Hr & Top). assert (Lk : lock s = Some t) by (apply (i_lock s Hi); rewrite Q, holds_cons, Hr; apply orb_true_r).
  assert (Pl : forall t' st, t' <> t -> s' = put s t' st -> lock s' = Some t /\ counts s' = counts s /\ results s' = results s /\ stack s' t = stack s t /\ List.length (gor s') = List.length (gor s)).
  { intros t' st N ->. rewrite put_lock, put_counts, put_results, (put_other _ _ _ _ N). repeat split; try assumption; try reflexivity. destruct t'; [reflexivity|apply put_nth_length]. }
  assert (Ot : forall t' g r', stack s t' = g :: r' -> holder g = true -> t' = t) by (intros t' g r' Q' Hg; assert (X : lock s = Some t') by (apply (i_lock s Hi); rewrite Q', holds_cons, Hg; reflexivity); congruence).
  unfold step in E. destruct (crashed s); [discriminate E|]. rewrite Lk in E.
  assert (Nt : forall t', (forall g r', stack s t' = g :: r' -> g <> FCheck /\ forall loc, g <> FGo loc) -> t' <> t) by (intros t' H ->; destruct (H _ _ Q) as [H1 H2]; destruct Top as [->|[loc ->]]; [exact (H1 eq_refl)|exact (H2 loc eq_refl)]).
  destruct e as [t' c|t'|t' p|t'|t'].
  - assert (X : exists st, s' = put s t' st) by (destruct (stack s t') as [|g r']; [destruct t' as [n|n]; [|discriminate E]|destruct g; try discriminate E]; injection E as <-; eexists; reflexivity). destruct X as [st ->].
    eapply Pl; [|reflexivity]. apply Nt. intros g r' Q'. rewrite Q' in E. destruct g; try discriminate E; split; discriminate.
  - exfalso. destruct (stack s t') as [|g r'] eqn:Q'; [discriminate E|]. destruct g; try discriminate E; rewrite (Ot _ _ _ Q' eq_refl), Q in Q'; injection Q' as -> ->; destruct Top as [X|[l X]]; discriminate X.
  - destruct (stack s t') as [|g r'] eqn:Q'; [discriminate E|]. destruct g; try discriminate E. injection E as <-. eapply Pl; [|reflexivity]. apply Nt. rewrite Q'. intros g0 r0 X. injection X as <- <-. split; discriminate.
  - destruct (stack s t') as [|g r'] eqn:Q'; [discriminate E|]. destruct g; try discriminate E.
    + injection E as <-. eapply Pl; [|reflexivity]. apply Nt. rewrite Q'. intros g0 r0 X. injection X as <- <-. split; discriminate.
    + exfalso. rewrite (Ot _ _ _ Q' eq_refl), Q in Q'. injection Q' as -> ->. destruct Top as [X|[l X]]; discriminate X.
  - destruct (stack s t') as [|g r'] eqn:Q'; [discriminate E|]. destruct g; try discriminate E.
    + injection E as <-. repeat split; assumption.
    + exfalso. rewrite (Ot _ _ _ Q' eq_refl), Q in Q'. injection Q' as -> ->. destruct Top as [X|[l X]]; discriminate X.
Qed.
Lemma stuck_run : forall evs s t s', inv s -> reentered (stack s t) -> run s evs = Some s' -> lock s' = Some t /\ counts s' = counts s /\ results s' = results s /\ stack s' t = stack s t /\ List.length (gor s') = List.length (gor s).
Proof.
  induction evs as [|e evs IH]; intros s t s' Hi Re R; cbn [run] in R.
  - injection R as <-. destruct (reentered_top _ _ Hi Re) as (f & r & Q & Hr & _). repeat split. apply (i_lock s Hi). rewrite Q, holds_cons, Hr. apply orb_true_r.
  - destruct (step s e) as [s1|] eqn:E; [|discriminate R]. destruct (stuck_step _ _ _ _ Hi Re E) as (_ & C & Rs & S1 & L). assert (Re1 : reentered (stack s1 t)) by (rewrite S1; exact Re).
    destruct (IH _ _ _ (inv_step _ _ _ Hi E) Re1 R) as (L2 & C2 & R2 & S2 & G2). repeat split; congruence.
Qed.
Lemma run_app : forall a s b, run s (a ++ b) = match run s a with Some s' => run s' b | None => None end.
Proof. induction a as [|e a IH]; intros s b; [reflexivity|]. cbn [run app]. destruct (step s e); [apply IH|reflexivity]. Qed.
Lemma holds_in : forall st, holds st = true -> exists g, In g st /\ holder g = true.
Proof. induction st as [|f st IH]; intro H; [discriminate H|]. rewrite holds_cons in H. destruct (holder f) eqn:F; [exists f; split; [left; reflexivity|exact F]|]. destruct (IH H) as (g & I1 & Hg). exists g. split; [right; exact I1|exact Hg]. Qed.
Lemma wf_below : forall t f r, wf t (f :: r) -> forall g, In g r -> below g = true.
Proof. intros t f r [W _] g I1. cbn [tl] in W. rewrite forallb_forall in W. exact (W g I1). Qed.
(** * All goroutines can end *)
Definition weight (f : frame) : nat := match f with FRun _ => 4 | FPanic _ => 3 | FEnd _ => 2 | FEndIn _ => 1 | FGo _ => 6 | FGoIn _ => 5 | FCheck => 3 | FCheckIn => 2 | FInfo => 1 end.
Fixpoint total (st : list frame) : nat := match st with [] => 0 | f :: st => weight f + total st end.
Fixpoint sum (l : list (list frame)) : nat := match l with [] => 0 | st :: l => total st + sum l end.
Lemma sum_put : forall l n st, (n < List.length l)%nat -> (sum (put_nth l n st) + total (nth n l []) = sum l + total st)%nat.
Proof. induction l as [|x l IH]; intros [|n] st H; cbn [List.length] in H; try lia; cbn [put_nth sum nth]; [lia|]. assert (X := IH n st ltac:(lia)). lia. Qed.
Lemma sum_app : forall a b, sum (a ++ b) = (sum a + sum b)%nat.
Proof. induction a as [|x a IH]; intro b; cbn; [reflexivity|]. rewrite IH. lia. Qed.
Lemma total_pos : forall f st, (0 < total (f :: st))%nat.
Proof. intros [] st; cbn; lia. Qed.
Lemma sum_zero : forall l n, sum l = 0%nat -> nth n l [] = [].
Proof. induction l as [|x l IH]; intros [|n] H; cbn in *; try reflexivity; [destruct x as [|f x]; [reflexivity|]; assert (X := total_pos f x); cbn in *; lia|apply IH; lia]. Qed.
Lemma sum_some : forall l, (0 < sum l)%nat -> exists n f r, (n < List.length l)%nat /\ nth n l [] = f :: r.
Proof.
  induction l as [|x l IH]; intro H; cbn in H; [lia|]. destruct x as [|f r]; [|exists 0%nat, f, r; cbn; split; [lia|reflexivity]]. cbn in H. destruct (IH H) as (n & f & r & L & E). exists (S n), f, r. cbn. split; [lia|exact E].
Qed.
Lemma nth_put : forall l n st, (n < List.length l)%nat -> nth n (put_nth l n st) [] = st.
Proof. induction l as [|x l IH]; intros [|n] st H; cbn in *; try lia; [reflexivity|apply IH; lia]. Qed.
Definition less (s s' : state) : Prop := lock s' = None /\ crashed s' = false /\ (sum (gor s') < sum (gor s))%nat /\ usr s' = usr s.
Lemma drain_one : forall s, inv s -> crashed s = false -> lock s = None -> (0 < sum (gor s))%nat -> exists evs s', run s evs = Some s' /\ less s s'.
Proof.
  intros s Hi C L P. destruct (sum_some _ P) as (n & f & r & Ln & Q). assert (W := i_wf s Hi (G n)). cbn [stack] in W.
  assert (Nh : holder f = false). { destruct (holder f) eqn:F; [|reflexivity]. assert (X : lock s = Some (G n)) by (apply (i_lock s Hi); cbn [stack]; rewrite Q, holds_cons, F; reflexivity). congruence. }
  assert (Pt := fun st => sum_put (gor s) n st Ln). rewrite Q in Pt.
  assert (Pt2 : forall st st', (sum (put_nth (put_nth (gor s) n st) n st') + total (f :: r) = sum (gor s) + total st')%nat).
  { intros st st'. assert (X := sum_put (put_nth (gor s) n st) n st'). rewrite put_nth_length, nth_put in X by exact Ln. specialize (X Ln). specialize (Pt st). lia. }
  assert (Ls : forall st, (n < List.length (put_nth (gor s) n st))%nat) by (intro st; rewrite put_nth_length; exact Ln).
  destruct f as [l|l|l|l|l|l| | |]; try discriminate Nh.
  - exists [End (G n) false]. eexists. cbn [run]. unfold step. rewrite C. cbn [stack]. rewrite Q. split; [reflexivity|]. unfold less. cbn. specialize (Pt (FEnd l :: r)). cbn in Pt. repeat split; try assumption. lia.
  - exists [HookRet (G n)]. eexists. cbn [run]. unfold step. rewrite C. cbn [stack]. rewrite Q. split; [reflexivity|]. unfold less. cbn. specialize (Pt (FEnd l :: r)). cbn in Pt. repeat split; try assumption. lia.
  - exists [Step (G n); Step (G n)]. eexists. cbn [run]. unfold step. rewrite C. cbn [stack]. rewrite Q, L. cbn [crashed setLock put stack gor]. rewrite C, nth_put by exact Ln. split; [reflexivity|]. unfold less. cbn. specialize (Pt2 (FEndIn l :: r) r). cbn in Pt2. repeat split; try assumption. lia.
  - exists [Step (G n); Step (G n)]. eexists. cbn [run]. unfold step. rewrite C. cbn [stack]. rewrite Q, L. cbn [crashed setLock put stack gor]. rewrite C, nth_put by exact Ln. split; [reflexivity|]. unfold less. cbn. rewrite sum_app. specialize (Pt2 (FGoIn l :: r) r). cbn in *. repeat split; try assumption. lia.
  - destruct (existsb (fun x => 0 <? snd x) (counts s)) eqn:X.
    + exists [Step (G n); Step (G n); HookRet (G n)]. eexists. cbn [run]. unfold step. rewrite C. cbn [stack]. rewrite Q, L. cbn [crashed setLock put stack gor counts]. rewrite C, nth_put by exact Ln. rewrite X. cbn [crashed setLock put stack gor counts]. rewrite ?C, nth_put by apply Ls.
      split; [reflexivity|]. unfold less. cbn. assert (Y := sum_put (put_nth (put_nth (gor s) n (FCheckIn :: r)) n (FInfo :: r)) n r). rewrite !put_nth_length, nth_put in Y by apply Ls. specialize (Y Ln). specialize (Pt2 (FCheckIn :: r) (FInfo :: r)). cbn in *. repeat split; try assumption. lia.
    + exists [Step (G n); Step (G n)]. eexists. cbn [run]. unfold step. rewrite C. cbn [stack]. rewrite Q, L. cbn [crashed setLock put stack gor counts]. rewrite C, nth_put by exact Ln. rewrite X. split; [reflexivity|]. unfold less. cbn. specialize (Pt2 (FCheckIn :: r) r). cbn in Pt2. repeat split; try assumption. lia.
Qed.
Lemma drain : forall m s, (sum (gor s) <= m)%nat -> inv s -> crashed s = false -> lock s = None -> exists evs s', run s evs = Some s' /\ lock s' = None /\ crashed s' = false /\ usr s' = usr s /\ forall n, stack s' (G n) = [].
Proof.
  induction m as [|m IH]; intros s H Hi C L.
  - exists [], s. repeat split; try assumption. intro n. apply sum_zero. lia.
  - destruct (Nat.eq_dec (sum (gor s)) 0) as [Z|N]; [exists [], s; repeat split; try assumption; intro n; apply sum_zero; exact Z|].
    destruct (drain_one s Hi C L ltac:(lia)) as (evs & s1 & R & L1 & C1 & S1 & U1). destruct (IH s1 ltac:(lia) (inv_run_from _ _ _ Hi R) C1 L1) as (evs2 & s2 & R2 & L2 & C2 & U2 & G2).
    exists (evs ++ evs2), s2. rewrite run_app, R. repeat split; try assumption. congruence.
Qed.
