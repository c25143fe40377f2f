(** Invariants of the event writer with its buffer pool. *)
From Verif Require Import Base PoolModel PoolSpec.

Lemma put_length : forall l a x, List.length (put l a x) = List.length l.
Proof. induction l as [|y l IH]; intros [|a] x; cbn [put List.length]; [reflexivity..|]. rewrite IH. reflexivity. Qed.
Lemma put_other : forall l a b x d, a <> b -> nth b (put l a x) d = nth b l d.
Proof. induction l as [|y l IH]; intros [|a] [|b] x d N; cbn [put nth]; try reflexivity; [congruence | apply IH; congruence]. Qed.
Lemma put_same : forall l a x d, (a < List.length l)%nat -> nth a (put l a x) d = x.
Proof. induction l as [|y l IH]; intros [|a] x d L; cbn [put nth List.length] in *; [lia | lia | reflexivity | apply IH; lia]. Qed.
Lemma bytes_eqb_true : forall a b, bytes_eqb a b = true -> a = b.
Proof. intros a b. unfold bytes_eqb. destruct (list_eq_dec Z.eq_dec a b); [auto | discriminate]. Qed.
Lemma bytes_eqb_refl : forall a, bytes_eqb a a = true.
Proof. intros a. unfold bytes_eqb. destruct (list_eq_dec Z.eq_dec a a); [reflexivity | congruence]. Qed.
Lemma firstn_exact : forall (A : Type) (a b : list A), firstn (List.length a) (a ++ b) = a.
Proof. intros A a b. rewrite firstn_app, Nat.sub_diag, firstn_all. cbn [firstn]. apply app_nil_r. Qed.

Definition formatted (evs : list event) : list nat := flat_map (fun e => match e with Format h _ _ => [h] | _ => [] end) evs.
Lemma record_of_app : forall evs l w, In w (formatted evs) -> record_of (evs ++ l) w = record_of evs w.
Proof.
  induction evs as [|e evs IH]; intros l w I; [destruct I|].
  destruct e as [h|h i|i|h rec cap|h|h|rec]; cbn [app record_of]; try (apply IH; exact I).
  destruct (Nat.eqb_spec h w) as [E|N]; [reflexivity|]. apply IH. destruct I as [I|I]; [congruence | exact I].
Qed.
Lemma record_of_new : forall evs w r c, ~ In w (formatted evs) -> record_of (evs ++ [Format w r c]) w = r.
Proof.
  induction evs as [|e evs IH]; intros w r c N; [cbn [app record_of]; rewrite Nat.eqb_refl; reflexivity|].
  destruct e as [h|h i|i|h rec cap|h|h|rec]; cbn [app record_of]; try (apply IH; exact N).
  destruct (Nat.eqb_spec h w) as [E|E]; [destruct N; left; exact E|]. apply IH. intro I. apply N. right; exact I.
Qed.
Lemma formatted_snoc : forall evs e, formatted (evs ++ [e]) = formatted evs ++ match e with Format h _ _ => [h] | _ => [] end.
Proof. intros. unfold formatted. rewrite flat_map_app. cbn [flat_map]. rewrite app_nil_r. reflexivity. Qed.
Lemma writes_snoc : forall evs e, writes (evs ++ [e]) = writes evs ++ match e with Write h => [h] | _ => [] end.
Proof. intros. unfold writes. rewrite flat_map_app. cbn [flat_map]. rewrite app_nil_r. reflexivity. Qed.
Lemma seen_snoc : forall evs e, seen (evs ++ [e]) = seen evs ++ match e with Read r => [r] | _ => [] end.
Proof. intros. unfold seen. rewrite flat_map_app. cbn [flat_map]. rewrite app_nil_r. reflexivity. Qed.

Definition ids (l : list slice) : list nat := map fst l.
Definition owned (p : hpc) : option nat := match p with HGot b | HFormatted b | HWritten b => Some (fst b) | _ => None end.
Definition active (p : hpc) : option nat := match p with HGot b | HFormatted b => Some (fst b) | _ => None end.
Definition done_format (p : hpc) : bool := match p with HFormatted _ | HWritten _ | HOver => true | _ => false end.

Lemma remove_nth_in : forall l i x, In x (ids (remove_nth l i)) -> In x (ids l).
Proof.
  unfold ids. induction l as [|y l IH]; intros [|i] x H; cbn [remove_nth map In] in *; [exact H | exact H | right; exact H|].
  destruct H as [H|H]; [left; exact H | right; exact (IH i x H)].
Qed.
Lemma remove_nth_nodup : forall l i, NoDup (ids l) -> NoDup (ids (remove_nth l i)).
Proof.
  unfold ids. induction l as [|y l IH]; intros [|i] N; cbn [remove_nth map] in *; [exact N | exact N | inversion N; assumption|].
  inversion N as [|a b N1 N2]; subst. constructor; [|exact (IH i N2)]. intro H. apply N1. exact (remove_nth_in l i _ H).
Qed.
Lemma remove_nth_gone : forall l i a n, NoDup (ids l) -> nth_error l i = Some (a, n) -> ~ In a (ids (remove_nth l i)).
Proof.
  unfold ids. induction l as [|y l IH]; intros [|i] a n N E; cbn [remove_nth nth_error map In] in *; try discriminate E; inversion N as [|p q N1 N2]; subst.
  - injection E as ->. exact N1.
  - intros [H|H]; [|exact (IH i a n N2 E H)]. apply N1. rewrite H. apply (in_map fst) in E || apply nth_error_In in E; apply (in_map fst) in E; exact E.
Qed.

Section Proofs.
  Variable inner : sink.
  Notation step := (step inner).
  Notation run := (run inner).

  Lemma run_snoc : forall evs s e, run s (evs ++ [e]) = match run s evs with Some s' => step s' e | None => None end.
  Proof.
    induction evs as [|x evs IH]; intros s e; cbn [PoolModel.run app].
    - destruct (step s e); reflexivity.
    - destruct (step s x); [apply IH | reflexivity].
  Qed.

  Record inv (evs : list event) (s : state) : Prop := mkInv {
    i_owned : forall h a, owned (hs s h) = Some a -> (a < List.length (arrays s))%nat;
    i_pool : forall a, In a (ids (pool s)) -> (a < List.length (arrays s))%nat;
    i_kept : forall a, In a (ids (kept s)) -> (a < List.length (arrays s))%nat;
    i_once : forall h h' a, owned (hs s h) = Some a -> owned (hs s h') = Some a -> h = h';
    i_nodup : NoDup (ids (pool s));
    i_free : forall h a, owned (hs s h) = Some a -> ~ In a (ids (pool s));
    i_record : forall h b, hs s h = HFormatted b -> content (arrays s) b = record_of evs h;
    i_quiet : forall a h, In a (ids (kept s)) -> active (hs s h) <> Some a;
    i_copies : inner = KeepsCopy -> forall a, In a (ids (kept s)) -> (forall h, owned (hs s h) <> Some a) /\ ~ In a (ids (pool s));
    i_log : logged evs = seen evs ++ map (content (arrays s)) (kept s);
    i_done : forall h, In h (formatted evs) <-> done_format (hs s h) = true;
    i_writes : forall h, In h (writes evs) -> done_format (hs s h) = true
  }.

  Lemma upd_same : forall f h x, upd f h x h = x. Proof. intros. unfold upd. rewrite Nat.eqb_refl. reflexivity. Qed.
  Lemma upd_other : forall f h x v, v <> h -> upd f h x v = f v.
  Proof. intros f h x v N. unfold upd. apply Nat.eqb_neq in N. rewrite N. reflexivity. Qed.

  Lemma logged_snoc : forall evs s e, inv evs s -> logged (evs ++ [e]) =
    logged evs ++ match e with Write h => [record_of (evs ++ [e]) h] | _ => [] end.
  Proof.
    intros evs s e I. unfold logged. rewrite writes_snoc, map_app. apply f_equal2.
    - apply map_ext_in. intros w W. apply record_of_app. apply (i_done _ _ I). exact (i_writes _ _ I w W).
    - destruct e; reflexivity.
  Qed.
  Lemma record_kept : forall evs s e h, inv evs s -> done_format (hs s h) = true -> record_of (evs ++ [e]) h = record_of evs h.
  Proof. intros evs s e h I D. apply record_of_app. apply (i_done _ _ I). exact D. Qed.
  Lemma content_app : forall l x b, (fst b < List.length l)%nat -> content (l ++ [x]) b = content l b.
  Proof. intros l x b L. unfold content. rewrite app_nth1 by exact L. reflexivity. Qed.
  Lemma content_put : forall l a x b, fst b <> a -> content (put l a x) b = content l b.
  Proof. intros l a x b N. unfold content. rewrite put_other by congruence. reflexivity. Qed.

  Tactic Notation "cases" constr(v) constr(h) ident(N) := destruct (Nat.eq_dec v h) as [->|N]; [rewrite ?upd_same in * | rewrite ?(upd_other _ _ _ _ N) in *].

  Definition may_pool (evs : list event) : Prop := inner = KeepsCopy \/ forall h i, ~ In (GetPooled h i) evs.

  Lemma inv_step : forall evs s e s', inv evs s -> may_pool (evs ++ [e]) -> step s e = Some s' -> inv (evs ++ [e]) s'.
  Proof.
    intros evs s e s' I MP E. pose proof I as J. destruct I as [I1 I2 I3 I4 I5 I6 I7 I8 I9 I10 I11 I12].
    destruct e as [h|h i|i|h rec cap|h|h|rec]; cbn [PoolModel.step] in E.
    - (* GetNew *) destruct (hs s h) eqn:H; try discriminate E. injection E as <-.
      constructor; cbn [arrays pool hs kept].
      + intros v a. rewrite app_length. cbn [List.length]. cases v h N; [intro X; injection X as <-; lia | intro X; apply I1 in X; lia].
      + intros a X. rewrite app_length. apply I2 in X. lia.
      + intros a X. rewrite app_length. apply I3 in X. lia.
      + intros v v' a X Y. cases v h N; cases v' h N'; [reflexivity | | |exact (I4 v v' a X Y)].
        * injection X as <-. apply I1 in Y. cbn [fst] in Y. lia.
        * injection Y as <-. apply I1 in X. cbn [fst] in X. lia.
      + exact I5.
      + intros v a X. cases v h N; [injection X as <-; intro Y; apply I2 in Y; cbn [fst] in Y; lia | exact (I6 v a X)].
      + intros v b X. cases v h N; [discriminate X|]. assert (L : (fst b < List.length (arrays s))%nat) by (apply (I1 v); rewrite X; reflexivity).
        rewrite (content_app _ _ _ L), (record_kept _ _ _ _ J); [exact (I7 v b X) | rewrite X; reflexivity].
      + intros a v X. cases v h N; [intro Y; injection Y as <-; apply I3 in X; cbn [fst] in X; lia | exact (I8 a v X)].
      + intros C a X. destruct (I9 C a X) as [A B]. split; [|exact B]. intro v. cases v h N; [intro Y; injection Y as <-; apply I3 in X; cbn [fst] in X; lia | exact (A v)].
      + rewrite (logged_snoc _ _ _ J), seen_snoc, !app_nil_r, I10. apply f_equal2; [reflexivity|]. apply map_ext_in. intros b X.
        symmetry. apply content_app. apply I3. apply in_map. exact X.
      + intro v. rewrite formatted_snoc, app_nil_r, I11. cases v h N; [rewrite H|]; reflexivity.
      + intros v X. rewrite writes_snoc, app_nil_r in X. apply I12 in X. cases v h N; [rewrite H in X; discriminate X | exact X].
    - (* GetPooled *) destruct (hs s h) eqn:H; try discriminate E. destruct (nth_error (pool s) i) as [[a0 n0]|] eqn:P; [|discriminate E]. injection E as <-.
      destruct MP as [C|MP]; [|exfalso; apply (MP h i); apply in_or_app; right; left; reflexivity].
      assert (P' : In a0 (ids (pool s))) by (apply nth_error_In in P; apply (in_map fst) in P; exact P).
      constructor; cbn [arrays pool hs kept].
      + intros v a. cases v h N; [intro X; injection X as <-; exact (I2 _ P') | apply I1].
      + intros a X. apply I2. exact (remove_nth_in _ _ _ X).
      + exact I3.
      + intros v v' a X Y. cases v h N; cases v' h N'; [reflexivity | | |exact (I4 v v' a X Y)].
        * injection X as <-. destruct (I6 v' _ Y P').
        * injection Y as <-. destruct (I6 v _ X P').
      + apply remove_nth_nodup. exact I5.
      + intros v a X. cases v h N; [injection X as <-; exact (remove_nth_gone _ _ _ _ I5 P) | intro Y; exact (I6 v a X (remove_nth_in _ _ _ Y))].
      + intros v b X. cases v h N; [discriminate X|]. rewrite (record_kept _ _ _ _ J); [exact (I7 v b X) | rewrite X; reflexivity].
      + intros a v X. cases v h N; [|exact (I8 a v X)]. intro Y. injection Y as <-. destruct (I9 C _ X) as [_ B]. exact (B P').
      + intros _ a X. destruct (I9 C a X) as [A B]. split; [|intro Y; exact (B (remove_nth_in _ _ _ Y))].
        intro v. cases v h N; [intro Y; injection Y as <-; exact (B P') | exact (A v)].
      + rewrite (logged_snoc _ _ _ J), seen_snoc, !app_nil_r. exact I10.
      + intro v. rewrite formatted_snoc, app_nil_r, I11. cases v h N; [rewrite H|]; reflexivity.
      + intros v X. rewrite writes_snoc, app_nil_r in X. apply I12 in X. cases v h N; [rewrite H in X; discriminate X | exact X].
    - (* PoolDrops *) injection E as <-. constructor; cbn [arrays pool hs kept].
      + exact I1.
      + intros a X. apply I2. exact (remove_nth_in _ _ _ X).
      + exact I3.
      + exact I4.
      + apply remove_nth_nodup. exact I5.
      + intros v a X Y. exact (I6 v a X (remove_nth_in _ _ _ Y)).
      + intros v b X. rewrite (record_kept _ _ _ _ J); [exact (I7 v b X) | rewrite X; reflexivity].
      + exact I8.
      + intros C a X. destruct (I9 C a X) as [A B]. split; [exact A | intro Y; exact (B (remove_nth_in _ _ _ Y))].
      + rewrite (logged_snoc _ _ _ J), seen_snoc, !app_nil_r. exact I10.
      + intro v. rewrite formatted_snoc, app_nil_r. apply I11.
      + intros v X. rewrite writes_snoc, app_nil_r in X. exact (I12 v X).
    - (* Format *) destruct (hs s h) as [|[a0 n0]| | |] eqn:H; try discriminate E.
      assert (O : owned (hs s h) = Some a0) by (rewrite H; reflexivity).
      assert (NF : ~ In h (formatted evs)) by (rewrite I11, H; discriminate).
      assert (KQ : forall a, In a (ids (kept s)) -> a <> a0) by (intros a X ->; apply (I8 a0 h X); rewrite H; reflexivity).
      unfold appendTo in E. destruct (Nat.leb_spec (List.length rec) (List.length (nth a0 (arrays s) []))) as [F|F]; injection E as <-.
      + constructor; cbn [arrays pool hs kept].
        * intros v a. rewrite put_length. cases v h N; [intro X; injection X as <-; exact (I1 h _ O) | apply I1].
        * intros a X. rewrite put_length. exact (I2 a X).
        * intros a X. rewrite put_length. exact (I3 a X).
        * intros v v' a X Y. cases v h N; cases v' h N'; [reflexivity | | |exact (I4 v v' a X Y)].
          -- injection X as <-. destruct N'. exact (I4 v' h _ Y O).
          -- injection Y as <-. destruct N. exact (I4 v h _ X O).
        * exact I5.
        * intros v a X. cases v h N; [injection X as <-; exact (I6 h _ O) | exact (I6 v a X)].
        * intros v b X. cases v h N.
          -- injection X as <-. rewrite record_of_new by exact NF. unfold content. cbn [fst snd]. rewrite put_same by exact (I1 h _ O). apply firstn_exact.
          -- rewrite (record_kept _ _ _ _ J) by (rewrite X; reflexivity). rewrite content_put; [exact (I7 v b X)|].
             intro Y. apply N. apply (I4 v h a0); [rewrite X; cbn [owned]; f_equal; exact Y | exact O].
        * intros a v X. cases v h N; [intro Y; injection Y as <-; exact (KQ _ X eq_refl) | exact (I8 a v X)].
        * intros C a X. destruct (I9 C a X) as [A B]. split; [|exact B]. intro v. cases v h N; [intro Y; injection Y as <-; exact (KQ _ X eq_refl) | exact (A v)].
        * rewrite (logged_snoc _ _ _ J), seen_snoc, !app_nil_r, I10. apply f_equal2; [reflexivity|]. apply map_ext_in. intros b X.
          symmetry. apply content_put. apply KQ. apply in_map. exact X.
        * intro v. rewrite formatted_snoc, in_app_iff, I11. cbn [In]. cases v h N; [cbn [done_format]; tauto|]. split; [intros [X|[X|[]]]; [exact X | congruence] | auto].
        * intros v X. rewrite writes_snoc, app_nil_r in X. cases v h N; [reflexivity | exact (I12 v X)].
      + constructor; cbn [arrays pool hs kept].
        * intros v a. rewrite app_length. cbn [List.length]. cases v h N; [intro X; injection X as <-; cbn [fst]; lia | intro X; apply I1 in X; lia].
        * intros a X. rewrite app_length. apply I2 in X. lia.
        * intros a X. rewrite app_length. apply I3 in X. lia.
        * intros v v' a X Y. cases v h N; cases v' h N'; [reflexivity | | |exact (I4 v v' a X Y)].
          -- injection X as <-. apply I1 in Y. cbn [fst] in Y. lia.
          -- injection Y as <-. apply I1 in X. cbn [fst] in X. lia.
        * exact I5.
        * intros v a X. cases v h N; [injection X as <-; intro Y; apply I2 in Y; cbn [fst] in Y; lia | exact (I6 v a X)].
        * intros v b X. cases v h N.
          -- injection X as <-. rewrite record_of_new by exact NF. unfold content. cbn [fst snd]. rewrite nth_middle. apply firstn_exact.
          -- rewrite (record_kept _ _ _ _ J) by (rewrite X; reflexivity). rewrite content_app; [exact (I7 v b X)|]. apply (I1 v). rewrite X. reflexivity.
        * intros a v X. cases v h N; [intro Y; injection Y as <-; apply I3 in X; cbn [fst] in X; lia | exact (I8 a v X)].
        * intros C a X. destruct (I9 C a X) as [A B]. split; [|exact B]. intro v. cases v h N; [intro Y; injection Y as <-; apply I3 in X; cbn [fst] in X; lia | exact (A v)].
        * rewrite (logged_snoc _ _ _ J), seen_snoc, !app_nil_r, I10. apply f_equal2; [reflexivity|]. apply map_ext_in. intros b X.
          symmetry. apply content_app. apply I3. apply in_map. exact X.
        * intro v. rewrite formatted_snoc, in_app_iff, I11. cbn [In]. cases v h N; [cbn [done_format]; tauto|]. split; [intros [X|[X|[]]]; [exact X | congruence] | auto].
        * intros v X. rewrite writes_snoc, app_nil_r in X. cases v h N; [reflexivity | exact (I12 v X)].
    - (* Write *) destruct (hs s h) as [| |buf| |] eqn:H; try discriminate E.
      assert (O : owned (hs s h) = Some (fst buf)) by (rewrite H; reflexivity). pose proof (I1 h _ O) as L.
      assert (D : record_of (evs ++ [Write h]) h = record_of evs h) by (apply (record_kept _ _ _ _ J); rewrite H; reflexivity).
      destruct inner eqn:IN; injection E as <-.
      + constructor; cbn [arrays pool hs kept].
        * intros v a. cases v h N; [intro X; injection X as <-; exact L | apply I1].
        * exact I2.
        * intros a X. unfold ids in X. rewrite map_app in X. apply in_app_or in X. destruct X as [X|[X|[]]]; [exact (I3 a X) | subst a; exact L].
        * intros v v' a X Y. cases v h N; cases v' h N'; [reflexivity | | |exact (I4 v v' a X Y)].
          -- injection X as <-. destruct N'. exact (I4 v' h _ Y O).
          -- injection Y as <-. destruct N. exact (I4 v h _ X O).
        * exact I5.
        * intros v a X. cases v h N; [injection X as <-; exact (I6 h _ O) | exact (I6 v a X)].
        * intros v b X. cases v h N; [discriminate X|]. rewrite (record_kept _ _ _ _ J); [exact (I7 v b X) | rewrite X; reflexivity].
        * intros a v X. unfold ids in X. rewrite map_app in X. apply in_app_or in X. cases v h N; [discriminate|]. destruct X as [X|[X|[]]]; [exact (I8 a v X)|].
          subst a. intro Y. apply N. apply (I4 v h (fst buf)); [|exact O]. destruct (hs s v); try discriminate Y; exact Y.
        * intro C; congruence.
        * rewrite (logged_snoc _ _ _ J), seen_snoc, app_nil_r, I10, map_app, D, <- app_assoc. cbn [map]. rewrite (I7 h buf H). reflexivity.
        * intro v. rewrite formatted_snoc, app_nil_r, I11. cases v h N; [rewrite H|]; reflexivity.
        * intros v X. rewrite writes_snoc in X. apply in_app_or in X. cases v h N; [reflexivity|]. destruct X as [X|[X|[]]]; [exact (I12 v X) | congruence].
      + constructor; cbn [arrays pool hs kept].
        * intros v a. rewrite app_length. cases v h N; [intro X; injection X as <-; lia | intro X; apply I1 in X; lia].
        * intros a X. rewrite app_length. apply I2 in X. lia.
        * intros a X. rewrite app_length. cbn [List.length]. unfold ids in X. rewrite map_app in X. apply in_app_or in X. destruct X as [X|[X|[]]]; [apply I3 in X; lia | cbn [fst] in X; lia].
        * intros v v' a X Y. cases v h N; cases v' h N'; [reflexivity | | |exact (I4 v v' a X Y)].
          -- injection X as <-. destruct N'. exact (I4 v' h _ Y O).
          -- injection Y as <-. destruct N. exact (I4 v h _ X O).
        * exact I5.
        * intros v a X. cases v h N; [injection X as <-; exact (I6 h _ O) | exact (I6 v a X)].
        * intros v b X. cases v h N; [discriminate X|]. rewrite content_app by (apply (I1 v); rewrite X; reflexivity).
          rewrite (record_kept _ _ _ _ J); [exact (I7 v b X) | rewrite X; reflexivity].
        * intros a v X. unfold ids in X. rewrite map_app in X. apply in_app_or in X. cases v h N; [discriminate|]. destruct X as [X|[X|[]]]; [exact (I8 a v X)|].
          cbn [fst] in X. intro Y. assert (owned (hs s v) = Some a) as Z by (destruct (hs s v); try discriminate Y; exact Y). apply I1 in Z. lia.
        * intros C a X. unfold ids in X. rewrite map_app in X. apply in_app_or in X. destruct X as [X|[X|[]]].
          -- destruct (I9 eq_refl a X) as [A B]. split; [|exact B]. intro v. cases v h N; [intro Y; injection Y as <-; exact (A h O) | exact (A v)].
          -- cbn [fst] in X. subst a. split; [|intro Y; apply I2 in Y; lia]. intro v. cases v h N; intro Y; [injection Y as Y; lia | apply I1 in Y; lia].
        * rewrite (logged_snoc _ _ _ J), seen_snoc, app_nil_r, I10, map_app, D, <- app_assoc. cbn [map]. apply f_equal2; [reflexivity|].
          apply f_equal2; [apply map_ext_in; intros b X; symmetry; apply content_app; apply I3; apply in_map; exact X|].
          f_equal. rewrite <- (I7 h buf H). unfold content at 2. cbn [fst snd]. rewrite nth_middle. unfold content. rewrite firstn_firstn, Nat.min_id. reflexivity.
        * intro v. rewrite formatted_snoc, app_nil_r, I11. cases v h N; [rewrite H|]; reflexivity.
        * intros v X. rewrite writes_snoc in X. apply in_app_or in X. cases v h N; [reflexivity|]. destruct X as [X|[X|[]]]; [exact (I12 v X) | congruence].
    - (* Put *) destruct (hs s h) as [| | |buf|] eqn:H; try discriminate E. injection E as <-.
      assert (O : owned (hs s h) = Some (fst buf)) by (rewrite H; reflexivity). pose proof (I1 h _ O) as L.
      constructor; cbn [arrays pool hs kept].
      + intros v a. cases v h N; [discriminate | apply I1].
      + intros a [X|X]; [cbn [fst] in X; subst a; exact L | exact (I2 a X)].
      + exact I3.
      + intros v v' a X Y. cases v h N; [discriminate X|]. cases v' h N'; [discriminate Y | exact (I4 v v' a X Y)].
      + unfold ids. cbn [map]. constructor; [exact (I6 h _ O) | exact I5].
      + intros v a X. cases v h N; [discriminate X|]. intros [Y|Y]; [|exact (I6 v a X Y)]. cbn [fst] in Y. subst a. apply N. exact (I4 v h _ X O).
      + intros v b X. cases v h N; [discriminate X|]. rewrite (record_kept _ _ _ _ J); [exact (I7 v b X) | rewrite X; reflexivity].
      + intros a v X. cases v h N; [discriminate | exact (I8 a v X)].
      + intros C a X. destruct (I9 C a X) as [A B]. split; [intro v; cases v h N; [discriminate | exact (A v)]|].
        intros [Y|Y]; [|exact (B Y)]. cbn [fst] in Y. subst a. exact (A h O).
      + rewrite (logged_snoc _ _ _ J), seen_snoc, !app_nil_r. exact I10.
      + intro v. rewrite formatted_snoc, app_nil_r, I11. cases v h N; [rewrite H|]; reflexivity.
      + intros v X. rewrite writes_snoc, app_nil_r in X. cases v h N; [reflexivity | exact (I12 v X)].
    - (* Read *) destruct (kept s) as [|buf rest] eqn:K; [discriminate E|]. destruct (bytes_eqb (content (arrays s) buf) rec) eqn:BE; [|discriminate E].
      injection E as <-. apply bytes_eqb_true in BE.
      constructor; cbn [arrays pool hs kept].
      + exact I1.
      + exact I2.
      + intros a X. apply I3. right; exact X.
      + exact I4.
      + exact I5.
      + exact I6.
      + intros v b X. rewrite (record_kept _ _ _ _ J); [exact (I7 v b X) | rewrite X; reflexivity].
      + intros a v X. apply I8. right; exact X.
      + intros C a X. apply (I9 C). right; exact X.
      + rewrite (logged_snoc _ _ _ J), seen_snoc, app_nil_r, I10, <- app_assoc. cbn [map app]. rewrite BE. reflexivity.
      + intro v. rewrite formatted_snoc, app_nil_r. apply I11.
      + intros v X. rewrite writes_snoc, app_nil_r in X. exact (I12 v X).
  Qed.

  Lemma inv_run : forall evs s, may_pool evs -> run init evs = Some s -> inv evs s.
  Proof.
    induction evs as [|e evs IH] using rev_ind; intros s MP R.
    - injection R as <-. constructor; cbn [arrays pool hs kept init ids map formatted writes flat_map]; try (intros; discriminate); try (intros; contradiction);
        first [apply NoDup_nil | reflexivity | intro h; split; [intros [] | discriminate]].
    - rewrite run_snoc in R. destruct (run init evs) as [s0|] eqn:E0; [|discriminate R].
      apply (inv_step evs s0); [apply IH; [|reflexivity] | exact MP | exact R].
      destruct MP as [C|MP]; [left; exact C | right; intros h i X; apply (MP h i); apply in_or_app; left; exact X].
  Qed.
End Proofs.
