(** Lemmas for C119-C121. *)
From Coq Require Import Permutation.
From Verif Require Import Base MsgfmtModel StatsModel StatsProofs StatsMemModel StatsMemSpec.
Open Scope list_scope.

(** * Lists *)
Lemma setNth_length : forall A (l : list A) i x, List.length (setNth l i x) = List.length l.
Proof. induction l as [|y l IH]; intros [|i] x; cbn; auto. Qed.
Lemma setNth_same : forall A (l : list A) i x, (i < List.length l)%nat -> nth_error (setNth l i x) i = Some x.
Proof. induction l as [|y l IH]; intros [|i] x L; cbn in *; try lia; auto. apply IH. lia. Qed.
Lemma setNth_other : forall A (l : list A) i j x, i <> j -> nth_error (setNth l i x) j = nth_error l j.
Proof. induction l as [|y l IH]; intros [|i] [|j] x L; cbn in *; try lia; auto. Qed.
Lemma setNth_out : forall A (l : list A) i x, (List.length l <= i)%nat -> setNth l i x = l.
Proof. induction l as [|y l IH]; intros [|i] x L; cbn in *; try lia; auto. f_equal. apply IH. lia. Qed.
Lemma nth_setNth_same : forall A (l : list A) i x d, (i < List.length l)%nat -> nth i (setNth l i x) d = x.
Proof. intros. apply nth_error_nth. now apply setNth_same. Qed.
Lemma nth_setNth_other : forall A (l : list A) i j x d, i <> j -> nth j (setNth l i x) d = nth j l d.
Proof. induction l as [|y l IH]; intros [|i] [|j] x d L; cbn in *; try lia; auto. Qed.
Lemma nth_error_snoc : forall A (l : list A) x i, nth_error (l ++ [x]) i = if (i =? List.length l)%nat then Some x else nth_error l i.
Proof.
  intros A l x i. destruct (Nat.eqb_spec i (List.length l)) as [->|N].
  - rewrite nth_error_app2 by lia. now rewrite Nat.sub_diag.
  - destruct (Nat.ltb_spec i (List.length l)); [now apply nth_error_app1|].
    rewrite nth_error_app2 by lia. destruct (i - List.length l)%nat eqn:E; [lia|]. cbn. destruct n; cbn;
    symmetry; apply nth_error_None; lia.
Qed.
Lemma nth_error_lt : forall A (l : list A) i x, nth_error l i = Some x -> (i < List.length l)%nat.
Proof. intros A l i x E. apply nth_error_Some. congruence. Qed.
Lemma arrange_perm : forall A order (l l' : list A), arrange order l = Some l' -> Permutation l' l.
Proof.
  induction order as [|i order IH]; intros l l' E; cbn [arrange] in E.
  - destruct l; [injection E as <-; constructor|discriminate].
  - destruct (nth_error l i) eqn:N; [|discriminate].
    destruct (arrange order (firstn i l ++ skipn (S i) l)) eqn:R; cbn [obind] in E; [|discriminate]. injection E as <-.
    apply IH in R. apply nth_error_split in N as (l1 & l2 & -> & <-).
    rewrite firstn_app, Nat.sub_diag, firstn_all, firstn_O, app_nil_r in R.
    replace (skipn (S (List.length l1)) (l1 ++ a :: l2)) with l2 in R.
    2:{ rewrite skipn_app, skipn_all2 by lia. replace (S (List.length l1) - List.length l1)%nat with 1%nat by lia. reflexivity. }
    rewrite R. apply Permutation_middle.
Qed.

(** * What nobody can write to *)
Definition keeps (h h' : mem) : Prop :=
  (forall b t, nth_error (blocks h) b = Some (true, t) -> nth_error (blocks h') b = Some (true, t)) /\
  (forall a l, nth_error (arrays h) a = Some (true, l) -> nth_error (arrays h') a = Some (true, l)).
Lemma keeps_refl : forall h, keeps h h.
Proof. split; auto. Qed.
Lemma keeps_trans : forall a b c, keeps a b -> keeps b c -> keeps a c.
Proof. intros a b c [A A'] [B B']. split; auto. Qed.
Definition ostr (h : mem) (s : str) : Prop := exists t, nth_error (blocks h) (sblock s) = Some (true, t).
Definition kok (h : mem) (k : key) : Prop :=
  match k with
  | KZero => True
  | KArray n a => (0 < n)%nat /\ exists l, nth_error (arrays h) a = Some (true, l) /\ List.length l = n /\ Forall (ostr h) l
  end.
Definition kshape (h : mem) (k : key) : Prop :=
  match k with KZero => True | KArray n a => (0 < n <= List.length (arrayOf h a))%nat end.
Lemma text_keeps : forall h h' s, keeps h h' -> ostr h s -> text h' s = text h s.
Proof. intros h h' s [K _] [t E]. unfold text. now rewrite E, (K _ _ E). Qed.
Lemma ostr_keeps : forall h h' s, keeps h h' -> ostr h s -> ostr h' s.
Proof. intros h h' s [K _] [t E]. exists t. auto. Qed.
Lemma kok_keeps : forall h h' k, keeps h h' -> kok h k -> kok h' k.
Proof.
  intros h h' [|n a] K O; [exact I|]. destruct O as (P & l & E & L & F). split; [exact P|]. exists l.
  split; [apply K; exact E|]. split; [exact L|]. eapply Forall_impl; [|exact F]. intros. eapply ostr_keeps; eauto.
Qed.
Lemma kstrs_keeps : forall h h' k, keeps h h' -> kok h k -> kstrs h' k = kstrs h k.
Proof.
  intros h h' [|n a] K O; [reflexivity|]. destruct O as (P & l & E & L & F). cbn [kstrs]. unfold arrayOf.
  now rewrite E, (proj2 K _ _ E).
Qed.
Lemma kstrs_own : forall h k, kok h k -> Forall (ostr h) (kstrs h k).
Proof.
  intros h [|n a] O; [constructor|]. destruct O as (P & l & E & L & F). cbn [kstrs]. unfold arrayOf. rewrite E.
  rewrite firstn_all2 by lia. exact F.
Qed.
Lemma texts_keeps : forall h h' l, keeps h h' -> Forall (ostr h) l -> map (text h') l = map (text h) l.
Proof. intros h h' l K F. apply map_ext_in. intros s I. rewrite Forall_forall in F. apply text_keeps; auto. Qed.
Lemma ktexts_keeps : forall h h' k, keeps h h' -> kok h k -> ktexts h' k = ktexts h k.
Proof.
  intros h h' k K O. unfold ktexts. rewrite (kstrs_keeps h h') by auto. apply texts_keeps; [exact K|]. now apply kstrs_own.
Qed.
Lemma kok_shape : forall h k, kok h k -> kshape h k.
Proof. intros h [|n a] O; [exact I|]. destruct O as (P & l & E & L & F). cbn. unfold arrayOf. rewrite E. lia. Qed.
Lemma ktexts_length : forall h n a, kshape h (KArray n a) -> List.length (ktexts h (KArray n a)) = n.
Proof. intros h n a S. cbn in S. unfold ktexts. rewrite map_length. cbn [kstrs]. rewrite firstn_length. lia. Qed.
Lemma same_texts : forall h k k', kshape h k -> kshape h k' -> same h k k' = true <-> ktexts h k = ktexts h k'.
Proof.
  intros h [|n a] [|n' a'] S S'; cbn [same].
  - tauto.
  - pose proof (ktexts_length _ _ _ S'). split; [discriminate|]. intros E. rewrite <- E in H. cbn in H, S'. lia.
  - pose proof (ktexts_length _ _ _ S). split; [discriminate|]. intros E. rewrite E in H. cbn in H, S. lia.
  - rewrite andb_true_iff, Nat.eqb_eq, key_eqb_eq. split; [tauto|]. intros E. split; [|exact E].
    rewrite <- (ktexts_length _ _ _ S), <- (ktexts_length _ _ _ S'). now rewrite E.
Qed.
Lemma lookup_some : forall h m k c, (forall k' c', In (k', c') m -> kshape h k') -> kshape h k -> lookup h m k = Some c ->
  exists k', In (k', c) m /\ ktexts h k' = ktexts h k.
Proof.
  induction m as [|(k' & c') m IH]; intros k c S K E; cbn in E; [discriminate|].
  destruct (same h k' k) eqn:Q.
  - injection E as <-. exists k'. split; [now left|]. apply same_texts in Q; eauto. apply (S k' c'). now left.
  - destruct (IH k c) as (k1 & I & X); auto. { intros. eapply S. right. eauto. } exists k1. split; [now right|exact X].
Qed.
Lemma lookup_none : forall h m k, (forall k' c', In (k', c') m -> kshape h k') -> kshape h k -> lookup h m k = None ->
  forall k' c', In (k', c') m -> ktexts h k' <> ktexts h k.
Proof.
  induction m as [|(k' & c') m IH]; intros k S K E k1 c1 I; cbn in E; [destruct I|].
  destruct (same h k' k) eqn:Q; [discriminate|]. destruct I as [I|I].
  - injection I as <- <-. intros X. apply same_texts in X; [congruence| |exact K]. apply (S k' c'). now left.
  - eapply IH; eauto. intros. eapply S. right. eauto.
Qed.

(** * The invariant *)
Record inv (h : mem) : Prop := mkInv {
  inv_ok : forall m k c, In (k, c) (mapOf h m) -> kok h k /\ (c < List.length (cells h))%nat;
  inv_nodup : forall m, NoDup (map (fun e => ktexts h (fst e)) (mapOf h m));
  inv_cell : forall m m' k k' c, In (k, c) (mapOf h m) -> In (k', c) (mapOf h m') -> ktexts h k = ktexts h k'
}.
(** The maps and the number of counters stay. *)
Lemma inv_keeps : forall h h', inv h -> keeps h h' -> maps h' = maps h -> List.length (cells h) = List.length (cells h') -> inv h'.
Proof.
  intros h h' I K M C. assert (MO : forall m, mapOf h' m = mapOf h m) by (intros; unfold mapOf; now rewrite M).
  constructor.
  - intros m k c. rewrite MO. intros X. destruct (inv_ok _ I _ _ _ X). split; [eapply kok_keeps; eauto|lia].
  - intros m. rewrite MO. rewrite (map_ext_in _ (fun e => ktexts h (fst e))); [apply I|].
    intros (k & c) X. apply ktexts_keeps; [exact K|]. apply (inv_ok _ I _ _ _ X).
  - intros m m' k k' c. rewrite !MO. intros X Y. rewrite !(ktexts_keeps h h') by (auto; eapply inv_ok; eauto). eapply inv_cell; eauto.
Qed.
Lemma mapOf_set : forall h m l, (m < List.length (maps h))%nat -> forall m', nth m' (setNth (maps h) m l) [] = if (m' =? m)%nat then l else mapOf h m'.
Proof.
  intros h m l L m'. destruct (Nat.eqb_spec m' m) as [->|N]; [now apply nth_setNth_same|]. unfold mapOf. apply nth_setNth_other. auto.
Qed.
(** An entry is added, with a counter that is new or that belongs to a key with the same texts. *)
Lemma inv_insert : forall h m k c, inv h -> (m < List.length (maps h))%nat -> kok h k -> (c < List.length (cells h))%nat ->
  (forall k' c', In (k', c') (mapOf h m) -> ktexts h k' <> ktexts h k) ->
  (forall m' k', In (k', c) (mapOf h m') -> ktexts h k' = ktexts h k) -> inv (insert h m k c).
Proof.
  intros h m k c I L K C N S.
  assert (MO : forall m', mapOf (insert h m k c) m' = if (m' =? m)%nat then mapOf h m ++ [(k, c)] else mapOf h m')
    by (intros; unfold insert, mapOf at 1; cbn [maps]; now rewrite mapOf_set).
  assert (IN : forall m' k' c', In (k', c') (mapOf (insert h m k c) m') -> In (k', c') (mapOf h m') \/ (m' = m /\ k' = k /\ c' = c)).
  { intros m' k' c'. rewrite MO. destruct (Nat.eqb_spec m' m) as [->|]; [|auto]. intros X. apply in_app_or in X as [X|[X|[]]]; [auto|].
    injection X as <- <-. auto. }
  constructor.
  - intros m' k' c' X. apply IN in X as [X|(-> & -> & ->)]; [|split; assumption]. exact (inv_ok _ I _ _ _ X).
  - intros m'. rewrite MO. change (ktexts (insert h m k c)) with (ktexts h). destruct (Nat.eqb_spec m' m) as [->|]; [|apply I].
    rewrite map_app. cbn [map fst].
    apply (Permutation_NoDup (l := ktexts h k :: map (fun e => ktexts h (fst e)) (mapOf h m))).
    + apply Permutation_cons_append.
    + constructor; [|apply I]. intros X. apply in_map_iff in X as ((k' & c') & E & X). now apply (N k' c' X).
  - intros m1 m2 k1 k2 c' X Y. change (ktexts (insert h m k c)) with (ktexts h).
    apply IN in X as [X|(-> & -> & ->)]; apply IN in Y as [Y|(-> & -> & E)].
    + eapply inv_cell; eauto.
    + subst. apply (S _ _ X).
    + symmetry. apply (S _ _ Y).
    + reflexivity.
Qed.

(** * Steps of the memory *)
Lemma keeps_newBlock : forall h b t, keeps h (newBlock h b t).
Proof.
  intros h b t. split; cbn; [|auto]. intros i x E. rewrite nth_error_app1; [exact E|]. eapply nth_error_lt; eauto.
Qed.
Lemma keeps_newArray : forall h b t, keeps h (newArray h b t).
Proof.
  intros h b t. split; cbn; [auto|]. intros i x E. rewrite nth_error_app1; [exact E|]. eapply nth_error_lt; eauto.
Qed.
Lemma keeps_same : forall h h', blocks h' = blocks h -> arrays h' = arrays h -> keeps h h'.
Proof. intros h h' B A. split; [rewrite B|rewrite A]; auto. Qed.
Lemma text_grows : forall h h' s, (exists bs, blocks h' = blocks h ++ bs) -> valid h s = true -> text h' s = text h s.
Proof.
  intros h h' s (bs & B) V. unfold text. rewrite B. apply orb_true_iff in V as [V|V].
  - apply Nat.eqb_eq in V. rewrite V. cbn [firstn]. destruct (nth_error (blocks h ++ bs) (sblock s)) as [(?, ?)|], (nth_error (blocks h) (sblock s)) as [(?, ?)|]; reflexivity.
  - apply Nat.ltb_lt in V. now rewrite nth_error_app1.
Qed.
Lemma valid_grows : forall h h' s, (exists bs, blocks h' = blocks h ++ bs) -> valid h s = true -> valid h' s = true.
Proof.
  intros h h' s (bs & B) V. unfold valid in *. rewrite B, app_length. apply orb_true_iff in V as [->|V]; [reflexivity|].
  apply Nat.ltb_lt in V. apply orb_true_iff. right. apply Nat.ltb_lt. lia.
Qed.
Lemma copyElems_spec : forall l h h' l', copyElems h l = (h', l') ->
  keeps h h' /\ arrays h' = arrays h /\ cells h' = cells h /\ maps h' = maps h /\ Forall (ostr h') l' /\ List.length l' = List.length l /\
  (exists bs, blocks h' = blocks h ++ bs) /\
  (Forall (fun s => valid h s = true) l -> map (text h') l' = map (text h) l).
Proof.
  induction l as [|s l IH]; intros h h' l' E; cbn in E.
  - injection E as <- <-. repeat split; auto. exists []. now rewrite app_nil_r.
  - destruct (copyElems (newBlock h true (text h s)) l) as (h2 & c) eqn:R. injection E as <- <-.
    destruct (IH _ _ _ R) as (K & A & C & M & F & L & (bs & B) & T). cbn in A, C, M, B.
    assert (N : nth_error (blocks h2) (List.length (blocks h)) = Some (true, text h s)).
    { apply K. cbn. rewrite nth_error_snoc, Nat.eqb_refl. reflexivity. }
    split; [eapply keeps_trans; [apply keeps_newBlock|exact K]|]. repeat split; auto.
    + constructor; [|exact F]. exists (text h s). exact N.
    + cbn. congruence.
    + exists ((true, text h s) :: bs). rewrite B, <- app_assoc. reflexivity.
    + intros V. inversion_clear V as [|? ? V1 V2]. cbn [map]. f_equal.
      * unfold text at 1. cbn [sblock soff slen]. rewrite N. cbn [skipn]. apply firstn_all.
      * assert (G : exists bs, blocks (newBlock h true (text h s)) = blocks h ++ bs) by (eexists; reflexivity).
        rewrite T.
        -- apply map_ext_in. intros x I. rewrite Forall_forall in V2. apply text_grows; auto.
        -- eapply Forall_impl; [|exact V2]. intros x. apply valid_grows. exact G.
Qed.

(** * Extract and Handle *)
Lemma pick_length : forall indices p l, pick indices p = Some l -> List.length l = List.length indices.
Proof.
  induction indices as [|i indices IH]; intros p l E; cbn in E; [injection E as <-; reflexivity|].
  destruct (nth_error p i) as [[s|]|]; try discriminate. destruct (pick indices p) eqn:Q; cbn in E; [|discriminate].
  injection E as <-. cbn. f_equal. eauto.
Qed.
Lemma pick_in : forall indices p l s, pick indices p = Some l -> In s l -> In (Some s) p.
Proof.
  induction indices as [|i indices IH]; intros p l s E I; cbn in E; [injection E as <-; destruct I|].
  destruct (nth_error p i) as [[s'|]|] eqn:N; try discriminate. destruct (pick indices p) eqn:Q; cbn in E; [|discriminate].
  injection E as <-. destruct I as [<-|I]; [eapply nth_error_In; eauto|eauto].
Qed.
Lemma pick_extract : forall h indices p,
  extract indices (map (fun p => match p with Some s => VStr (text h s) | None => VAny 0 0 end) p) =
  match pick indices p with Some l => Some (map (text h) l) | None => None end.
Proof.
  induction indices as [|i indices IH]; intros p; [reflexivity|]. cbn [extract pick].
  destruct (nth_error p i) as [[s|]|] eqn:N.
  - rewrite (map_nth_error _ _ _ N). rewrite IH. destruct (pick indices p); reflexivity.
  - rewrite (map_nth_error _ _ _ N). reflexivity.
  - rewrite (proj2 (nth_error_None _ _)); [reflexivity|]. rewrite map_length. now apply nth_error_None.
Qed.
Lemma room_enough : forall n, (n <= room n)%nat.
Proof.
  intros n. unfold room. destruct (Nat.leb_spec n 2); [lia|]. destruct (Nat.leb_spec n 4); [lia|].
  destruct (Nat.leb_spec n 8); lia.
Qed.
Lemma room_ltb : forall n, (room n <? n)%nat = false.
Proof. intros n. apply Nat.ltb_ge. apply room_enough. Qed.
Lemma keeps_newCell : forall h, keeps h (NewCounterMonoid h).
Proof. intros. now apply keeps_same. Qed.
Lemma inv_newCell : forall h, inv h -> inv (NewCounterMonoid h).
Proof.
  intros h I. constructor.
  - intros m k c X. destruct (inv_ok _ I m k c X). split; [exact H|]. cbn. rewrite app_length. cbn. lia.
  - apply I.
  - apply I.
Qed.
Lemma inv_fresh : forall h m k, inv h -> ~ In (k, List.length (cells h)) (mapOf h m).
Proof. intros h m k I X. apply (inv_ok _ I) in X as [_ X]. lia. Qed.

Lemma Extract_spec : forall h m indices p h' c, inv h -> (m < List.length (maps h))%nat ->
  (forall s, In (Some s) p -> valid h s = true) -> Extract h m indices p = Some (h', c) ->
  exists strs, pick indices p = Some strs /\ keeps h h' /\ inv h' /\ (c < List.length (cells h'))%nat /\
    (exists bs, blocks h' = blocks h ++ bs) /\ (exists ars, arrays h' = arrays h ++ ars) /\
    ((exists k, In (k, c) (mapOf h m) /\ ktexts h k = map (text h) strs /\ maps h' = maps h /\ cells h' = cells h) \/
     (exists k, kok h' k /\ ktexts h' k = map (text h) strs /\ (forall k' c', In (k', c') (mapOf h m) -> ktexts h k' <> map (text h) strs) /\
        maps h' = setNth (maps h) m (mapOf h m ++ [(k, c)]) /\ cells h' = cells h ++ [0] /\ c = List.length (cells h))).
Proof.
  intros h m indices p h' c I L V E. unfold Extract in E. destruct (Nat.eqb_spec (List.length indices) 0) as [Z|Z].
  - destruct indices; [|discriminate Z]. exists []. split; [reflexivity|].
    destruct (lookup h (mapOf h m) KZero) as [c'|] eqn:Q.
    + injection E as <- <-. apply lookup_some in Q as (k & X & T); [| |exact Logic.I].
      * split; [apply keeps_refl|]. split; [exact I|]. split; [apply (inv_ok _ I _ _ _ X)|].
        split; [exists []; now rewrite app_nil_r|]. split; [exists []; now rewrite app_nil_r|]. left. exists k. auto.
      * intros k' c0 X. apply kok_shape. apply (inv_ok _ I _ _ _ X).
    + injection E as <- <-. pose proof (lookup_none h _ KZero (fun k' c' X => kok_shape _ _ (proj1 (inv_ok _ I _ _ _ X))) Logic.I Q) as N.
      split; [now apply keeps_same|]. split; [|split; [|split; [|split]]].
      * apply inv_insert; [now apply inv_newCell|exact L|exact Logic.I| | |].
        -- cbn. rewrite app_length. cbn. lia.
        -- exact N.
        -- intros m' k' X. destruct (inv_fresh _ _ _ I X).
      * cbn. rewrite app_length. cbn. lia.
      * exists []; now rewrite app_nil_r.
      * exists []; now rewrite app_nil_r.
      * right. exists KZero. repeat split; auto.
  - rewrite room_ltb in E. destruct (pick indices p) as [strs|] eqn:P; cbn [obind] in E; [|discriminate].
    exists strs. split; [reflexivity|].
    pose proof (pick_length _ _ _ P) as PL.
    assert (VS : Forall (fun s => valid h s = true) strs) by (apply Forall_forall; intros; apply V; eapply pick_in; eauto).
    set (h1 := newArray h false (strs ++ repeat noStr (room (List.length indices) - List.length indices))) in *.
    set (k0 := KArray (List.length indices) (List.length (arrays h))) in *.
    assert (A0 : arrayOf h1 (List.length (arrays h)) = strs ++ repeat noStr (room (List.length indices) - List.length indices)).
    { unfold arrayOf, h1. cbn. rewrite nth_error_snoc, Nat.eqb_refl. reflexivity. }
    assert (S0 : kshape h1 k0) by (cbn; rewrite A0, app_length; lia).
    assert (T0 : ktexts h1 k0 = map (text h) strs).
    { unfold ktexts, k0. cbn [kstrs]. rewrite A0. rewrite firstn_app. rewrite (firstn_all2 strs) by lia.
      rewrite PL, Nat.sub_diag. cbn [firstn]. rewrite app_nil_r. reflexivity. }
    assert (K1 : keeps h h1) by apply keeps_newArray.
    assert (I1 : inv h1) by (eapply inv_keeps; eauto).
    assert (SH : forall k' c', In (k', c') (mapOf h1 m) -> kshape h1 k') by (intros k' c' X; apply kok_shape; apply (inv_ok _ I1 _ _ _ X)).
    destruct (lookup h1 (mapOf h1 m) k0) as [c'|] eqn:Q.
    + injection E as <- <-. apply lookup_some in Q as (k & X & T); [|exact SH|exact S0].
      split; [exact K1|]. split; [exact I1|]. split; [apply (inv_ok _ I1 _ _ _ X)|].
      split; [exists []; now rewrite app_nil_r|]. split; [eexists; reflexivity|]. left. exists k.
      repeat split; auto. rewrite <- T0, <- T. symmetry. apply ktexts_keeps; [exact K1|]. apply (inv_ok _ I _ _ _ X).
    + destruct (copyDimension (NewCounterMonoid h1) strs) as (h3 & k) eqn:CD. injection E as <- <-.
      unfold copyDimension in CD. destruct (copyElems (NewCounterMonoid h1) strs) as (h2 & copied) eqn:CE. injection CD as <- <-.
      destruct (copyElems_spec _ _ _ _ CE) as (K2 & AR & CL & MP & OS & LN & (bs & BL) & TX).
      pose proof (lookup_none h1 _ k0 SH S0 Q) as N.
      set (h3 := newArray h2 true copied) in *. set (k := KArray (List.length strs) (List.length (arrays h2))) in *.
      assert (K3 : keeps h1 h3).
      { eapply keeps_trans; [apply keeps_newCell|]. eapply keeps_trans; [exact K2|]. apply keeps_newArray. }
      assert (I3 : inv h3).
      { eapply inv_keeps; [apply (inv_newCell h1 I1)|eapply keeps_trans; [exact K2|apply keeps_newArray]|exact MP|]. cbn [h3 newArray cells]. now rewrite CL. }
      assert (N3 : nth_error (arrays h3) (List.length (arrays h2)) = Some (true, copied)) by (cbn; rewrite nth_error_snoc, Nat.eqb_refl; reflexivity).
      assert (KO : kok h3 k).
      { cbn. split; [lia|]. exists copied. split; [exact N3|]. split; [exact LN|]. eapply Forall_impl; [|exact OS]. intros s. apply ostr_keeps. apply keeps_newArray. }
      assert (KT : ktexts h3 k = map (text h) strs).
      { unfold ktexts, k. cbn [kstrs]. unfold arrayOf. rewrite N3. rewrite firstn_all2 by lia.
        change (map (text h2) copied = map (text (NewCounterMonoid h1)) strs). apply TX.
        eapply Forall_impl; [|exact VS]. intros s. apply valid_grows. exists []. cbn. now rewrite app_nil_r. }
      assert (MO : forall m', mapOf h3 m' = mapOf h m') by (intros m'; unfold mapOf; cbn; rewrite MP; reflexivity).
      assert (LM : (m < List.length (maps h3))%nat) by (cbn; rewrite MP; exact L).
      assert (LC : (List.length (cells h1) < List.length (cells h3))%nat) by (cbn; rewrite CL; cbn; rewrite app_length; cbn; lia).
      split; [eapply keeps_trans; [exact K1|]; eapply keeps_trans; [exact K3|]; now apply keeps_same|].
      split; [|split; [|split; [|split]]].
      * apply inv_insert; auto.
        -- intros k' c'. rewrite MO, KT, <- T0. intros X. rewrite (ktexts_keeps h1) by (auto; apply (inv_ok _ I1 _ _ _ X)). now apply (N k' c').
        -- intros m' k'. rewrite MO. intros X. destruct (inv_fresh _ _ _ I X).
      * exact LC.
      * exists bs. cbn. rewrite BL. reflexivity.
      * cbn. rewrite AR. cbn. rewrite <- app_assoc. eexists; reflexivity.
      * right. exists k. repeat split; auto.
        -- cbn. lia.
        -- exists copied. split; [exact N3|]. split; [exact LN|]. destruct KO as (_ & l & E & _ & F). rewrite N3 in E. injection E as <-. exact F.
        -- intros k' c' X. rewrite <- T0. rewrite <- (ktexts_keeps h h1) by (auto; apply (inv_ok _ I _ _ _ X)). now apply (N k' c').
        -- cbn. rewrite MP. cbn. f_equal.
Qed.

Definition view (h : mem) (e : key * nat) : list bytes * Z := (ktexts h (fst e), cellOf h (snd e)).
Definition abs (h : mem) (m : nat) : list (list bytes * Z) := map (view h) (mapOf h m).
Lemma counts_abs : forall w m, counts w m = abs (heap w) m.
Proof. reflexivity. Qed.
Lemma cellOf_set : forall h c v c', (c < List.length (cells h))%nat -> cellOf (setCell h c v) c' = if (c' =? c)%nat then v else cellOf h c'.
Proof.
  intros h c v c' L. unfold cellOf, setCell. cbn [cells]. destruct (Nat.eqb_spec c' c) as [->|N]; [now apply nth_setNth_same|].
  apply nth_setNth_other. auto.
Qed.
Lemma increment_hit : forall h v l k c, (c < List.length (cells h))%nat -> NoDup (map (fun e => ktexts h (fst e)) l) ->
  (forall k1 k2 c', In (k1, c') l -> In (k2, c') l -> ktexts h k1 = ktexts h k2) -> In (k, c) l -> v = uint64 (cellOf h c + 1) ->
  map (view (setCell h c v)) l = increment (map (view h) l) (ktexts h k).
Proof.
  intros h v l k c L. induction l as [|(k' & c') l IH]; intros N U I V; [destruct I|].
  cbn [map increment view fst snd]. unfold view at 1 3. cbn [fst snd]. rewrite cellOf_set by exact L. change (ktexts (setCell h c v)) with (ktexts h).
  inversion_clear N as [|? ? NI ND]. destruct I as [I|I].
  - injection I as -> ->. rewrite key_eqb_refl, Nat.eqb_refl. rewrite V. f_equal.
    apply map_ext_in. intros (k2 & c2) X. unfold view. cbn [fst snd]. rewrite cellOf_set by exact L. change (ktexts (setCell h c v)) with (ktexts h).
    destruct (Nat.eqb_spec c2 c) as [->|]; [|reflexivity]. exfalso. apply NI. cbn [fst].
    rewrite (U k k2 c); [|now left|now right]. apply in_map_iff. exists (k2, c). auto.
  - assert (D : ktexts h k' <> ktexts h k) by (intros E; apply NI; cbn [fst]; rewrite E; apply in_map_iff; exists (k, c); auto).
    destruct (Nat.eqb_spec c' c) as [->|].
    { exfalso. apply D. apply (U _ _ c); [now left|now right]. }
    destruct (key_eqb (ktexts h k') (ktexts h k)) eqn:Q; [apply key_eqb_eq in Q; contradiction|]. f_equal.
    apply IH; auto. intros. eapply U; right; eauto.
Qed.
Lemma increment_miss : forall l d, ~ In d (map fst l) -> increment l d = l ++ [(d, 1)].
Proof.
  induction l as [|(k & c) l IH]; intros d N; [reflexivity|]. cbn [increment]. destruct (key_eqb k d) eqn:Q.
  - apply key_eqb_eq in Q. destruct N. now left.
  - cbn [app]. f_equal. apply IH. intros X. apply N. now right.
Qed.
Lemma view_keeps : forall h h' k c, keeps h h' -> kok h k -> cellOf h' c = cellOf h c -> view h' (k, c) = view h (k, c).
Proof. intros h h' k c K O C. unfold view. cbn [fst snd]. rewrite (ktexts_keeps h h') by auto. now rewrite C. Qed.
Lemma inv_setCell : forall h c v, inv h -> inv (setCell h c v).
Proof. intros h c v I. eapply inv_keeps; [exact I|now apply keeps_same|reflexivity|]. cbn. now rewrite setNth_length. Qed.
Definition disjoint (h : mem) (a b : nat) : Prop := forall k c k', In (k, c) (mapOf h a) -> ~ In (k', c) (mapOf h b).

Lemma Handle_spec : forall h m indices p h', inv h -> (m < List.length (maps h))%nat ->
  (forall s, In (Some s) p -> valid h s = true) -> Handle h m indices p = Some h' ->
  exists strs, pick indices p = Some strs /\ keeps h h' /\ inv h' /\
    (exists bs, blocks h' = blocks h ++ bs) /\ (exists ars, arrays h' = arrays h ++ ars) /\ List.length (maps h') = List.length (maps h) /\
    (exists l, mapOf h' m = mapOf h m ++ l) /\ (forall m', m' <> m -> mapOf h' m' = mapOf h m') /\
    abs h' m = increment (abs h m) (map (text h) strs) /\
    (forall m', m' <> m -> disjoint h m m' -> abs h' m' = abs h m').
Proof.
  intros h m indices p h' I L V E. unfold Handle in E. destruct (Extract h m indices p) as [(h1 & c)|] eqn:X; cbn [obind] in E; [|discriminate].
  injection E as <-. destruct (Extract_spec _ _ _ _ _ _ I L V X) as (strs & P & K & I1 & LC & BG & AG & W). exists strs. split; [exact P|].
  split; [eapply keeps_trans; [exact K|now apply keeps_same]|]. split; [now apply inv_setCell|]. split; [exact BG|]. split; [exact AG|].
  destruct W as [(k & IN & T & MP & CL)|(k & KO & T & N & MP & CL & ->)].
  - assert (MO : forall m', mapOf h1 m' = mapOf h m') by (intros; unfold mapOf; now rewrite MP).
    split; [cbn; now rewrite MP|]. split; [exists []; rewrite app_nil_r; apply MO|]. split; [intros; apply MO|].
    assert (AB : forall m', abs h1 m' = abs h m').
    { intros m'. unfold abs. rewrite MO. apply map_ext_in. intros (k' & c') Y. apply view_keeps; [exact K|apply (inv_ok _ I _ _ _ Y)|]. unfold cellOf. now rewrite CL. }
    split.
    + rewrite <- AB, <- T. rewrite <- (ktexts_keeps h h1 k K) by apply (inv_ok _ I _ _ _ IN).
      unfold abs. change (mapOf (setCell h1 c _) m) with (mapOf h1 m). apply increment_hit; [exact LC|apply I1| | |reflexivity].
      * intros k1 k2 c' A B. eapply (inv_cell _ I1); eauto.
      * now rewrite MO.
    + intros m' D S. rewrite <- AB. unfold abs. change (mapOf (setCell h1 c _) m') with (mapOf h1 m'). apply map_ext_in. intros (k' & c') Y.
      unfold view. cbn [fst snd]. rewrite cellOf_set by exact LC. destruct (Nat.eqb_spec c' c) as [->|]; [|reflexivity].
      rewrite MO in Y. destruct (S _ _ _ IN Y).
  - assert (MO : forall m', mapOf h1 m' = if (m' =? m)%nat then mapOf h m ++ [(k, List.length (cells h))] else mapOf h m').
    { intros m'. unfold mapOf at 1. rewrite MP. now apply mapOf_set. }
    split; [cbn; rewrite MP; apply setNth_length|].
    split; [exists [(k, List.length (cells h))]; change (mapOf (setCell h1 _ _) m) with (mapOf h1 m); rewrite MO, Nat.eqb_refl; reflexivity|].
    split; [intros m' D; change (mapOf (setCell h1 _ _) m') with (mapOf h1 m'); rewrite MO; destruct (Nat.eqb_spec m' m); [contradiction|reflexivity]|].
    set (h2 := setCell h1 (List.length (cells h)) (uint64 (cellOf h1 (List.length (cells h)) + 1))) in *.
    assert (CO : forall c, (c < List.length (cells h))%nat -> cellOf h2 c = cellOf h c).
    { intros c Q. unfold h2. rewrite cellOf_set by exact LC. destruct (Nat.eqb_spec c (List.length (cells h))); [lia|]. unfold cellOf. rewrite CL. now apply app_nth1. }
    assert (CN : cellOf h2 (List.length (cells h)) = 1).
    { unfold h2. rewrite cellOf_set, Nat.eqb_refl by exact LC. unfold cellOf. rewrite CL, app_nth2, Nat.sub_diag by lia. reflexivity. }
    assert (AB : forall m', map (view h2) (mapOf h m') = abs h m').
    { intros m'. apply map_ext_in. intros (k' & c') Y. apply view_keeps; [eapply keeps_trans; [exact K|now apply keeps_same]|apply (inv_ok _ I _ _ _ Y)|].
      apply CO. apply (inv_ok _ I _ _ _ Y). }
    split.
    + rewrite increment_miss.
      * unfold abs at 1. change (mapOf h2 m) with (mapOf h1 m). rewrite MO, Nat.eqb_refl, map_app, AB. f_equal. cbn [map]. unfold view. cbn [fst snd].
        rewrite CN. change (ktexts h2 k) with (ktexts h1 k). now rewrite T.
      * intros Y. apply in_map_iff in Y as ((d & z) & Q & Y). cbn in Q. subst d. apply in_map_iff in Y as ((k' & c') & Q & Y). unfold view in Q. cbn in Q.
        injection Q as Q _. now apply (N k' c').
    + intros m' D S. unfold abs at 1. change (mapOf h2 m') with (mapOf h1 m'). rewrite MO. destruct (Nat.eqb_spec m' m); [contradiction|]. apply AB.
Qed.

(** * Add *)
Lemma insert_mapOf : forall h m k c m', (m < List.length (maps h))%nat ->
  mapOf (insert h m k c) m' = if (m' =? m)%nat then mapOf h m ++ [(k, c)] else mapOf h m'.
Proof. intros. unfold insert, mapOf at 1. cbn [maps]. now apply mapOf_set. Qed.
Lemma addLoop_inv : forall a b es h, inv h -> (a < List.length (maps h))%nat -> (forall e, In e es -> In e (mapOf h b)) ->
  inv (addLoop h a es) /\ blocks (addLoop h a es) = blocks h /\ arrays (addLoop h a es) = arrays h /\
  List.length (maps (addLoop h a es)) = List.length (maps h) /\ (exists l, mapOf (addLoop h a es) a = mapOf h a ++ l) /\
  (forall m, m <> a -> mapOf (addLoop h a es) m = mapOf h m).
Proof.
  intros a b. induction es as [|(k & v) es IH]; intros h I L S; cbn [addLoop].
  - split; [exact I|]. do 3 (split; [reflexivity|]). split; [exists []; now rewrite app_nil_r|auto].
  - assert (KV : In (k, v) (mapOf h b)) by (apply S; now left). destruct (inv_ok _ I _ _ _ KV) as [KO LV].
    assert (SH : forall k' c', In (k', c') (mapOf h a) -> kshape h k') by (intros k' c' X; apply kok_shape; apply (inv_ok _ I _ _ _ X)).
    destruct (lookup h (mapOf h a) k) as [c|] eqn:Q.
    + destruct (IH (counterAdd h c v)) as (I' & B & A & M & MA & MO); auto.
      * now apply inv_setCell.
      * intros e X. apply S. now right.
      * auto 10.
    + pose proof (lookup_none h _ k SH (kok_shape _ _ KO) Q) as N.
      assert (IN : forall m e, In e (mapOf h m) -> In e (mapOf (insert h a k v) m)).
      { intros m e X. rewrite insert_mapOf by exact L. destruct (Nat.eqb_spec m a) as [->|]; [apply in_or_app; now left|exact X]. }
      destruct (IH (insert h a k v)) as (I' & B & A & M & (l & MA) & MO).
      * apply inv_insert; auto. intros m' k' X. eapply inv_cell; eauto.
      * cbn. now rewrite setNth_length.
      * intros e X. apply IN. apply S. now right.
      * split; [exact I'|]. split; [exact B|]. split; [exact A|]. split; [rewrite M; cbn; apply setNth_length|]. split.
        -- exists ((k, v) :: l). rewrite MA, insert_mapOf, Nat.eqb_refl by exact L. rewrite <- app_assoc. reflexivity.
        -- intros m D. rewrite MO by exact D. rewrite insert_mapOf by exact L. destruct (Nat.eqb_spec m a); [contradiction|reflexivity].
Qed.

(** The sum of two counts; a dimension that is missing has none. *)
Notation plus := summed.
Lemma get_view_in : forall h l k c, NoDup (map (fun e => ktexts h (fst e)) l) -> In (k, c) l -> get (map (view h) l) (ktexts h k) = Some (cellOf h c).
Proof.
  induction l as [|(k' & c') l IH]; intros k c N I; [destruct I|]. cbn [map get view fst snd]. unfold view at 1. cbn [fst snd].
  inversion_clear N as [|? ? NI ND]. destruct I as [I|I].
  - injection I as -> ->. now rewrite key_eqb_refl.
  - destruct (key_eqb (ktexts h k') (ktexts h k)) eqn:Q; [|now apply IH]. apply key_eqb_eq in Q. destruct NI. cbn [fst]. rewrite Q.
    apply in_map_iff. exists (k, c). auto.
Qed.
Lemma get_view_none : forall h l d, (forall k c, In (k, c) l -> ktexts h k <> d) -> get (map (view h) l) d = None.
Proof.
  induction l as [|(k' & c') l IH]; intros d N; [reflexivity|]. cbn [map get]. unfold view at 1. cbn [fst snd].
  destruct (key_eqb (ktexts h k') d) eqn:Q; [apply key_eqb_eq in Q; destruct (N k' c'); auto; now left|].
  apply IH. intros. eapply N. right. eauto.
Qed.
Lemma get_view_some : forall h l d z, get (map (view h) l) d = Some z -> exists k c, In (k, c) l /\ ktexts h k = d /\ cellOf h c = z.
Proof.
  induction l as [|(k' & c') l IH]; intros d z E; [discriminate|]. cbn [map get] in E. unfold view at 1 in E. cbn [fst snd] in E.
  destruct (key_eqb (ktexts h k') d) eqn:Q.
  - apply key_eqb_eq in Q. injection E as <-. exists k', c'. split; [now left|auto].
  - destruct (IH _ _ E) as (k & c & I & A). exists k, c. split; [now right|exact A].
Qed.
Lemma get_perm : forall h l l' d, NoDup (map (fun e => ktexts h (fst e)) l) -> Permutation l' l -> get (map (view h) l') d = get (map (view h) l) d.
Proof.
  intros h l l' d N P.
  assert (N' : NoDup (map (fun e => ktexts h (fst e)) l')) by (eapply Permutation_NoDup; [|exact N]; apply Permutation_map; now symmetry).
  destruct (get (map (view h) l) d) as [z|] eqn:G.
  - apply get_view_some in G as (k & c & I & <- & <-). apply get_view_in; [exact N'|]. eapply Permutation_in; [symmetry; exact P|exact I].
  - apply get_view_none. intros k c I E. subst d. rewrite (get_view_in h l k c N) in G; [discriminate|]. eapply Permutation_in; eauto.
Qed.

Lemma get_view_cons : forall h k v es d, get (map (view h) ((k, v) :: es)) d = if key_eqb (ktexts h k) d then Some (cellOf h v) else get (map (view h) es) d.
Proof. reflexivity. Qed.
Lemma addLoop_sum : forall a b, a <> b -> forall es h, inv h -> (a < List.length (maps h))%nat -> (forall e, In e es -> In e (mapOf h b)) ->
  NoDup (map (fun e => ktexts h (fst e)) es) ->
  (forall k c k', In (k, c) (mapOf h a) -> In (k', c) (mapOf h b) -> forall e, In e es -> ktexts h (fst e) <> ktexts h k) ->
  (forall d, get (abs (addLoop h a es) a) d = plus (get (abs h a) d) (get (map (view h) es) d)) /\
  abs (addLoop h a es) b = abs h b /\
  (forall m, m <> a -> disjoint h a m -> disjoint h b m -> abs (addLoop h a es) m = abs h m).
Proof.
  intros a b D. induction es as [|(k & v) es IH]; intros h I L S N F; cbn [addLoop].
  - split; [|auto]. intros d. cbn. destruct (get (abs h a) d); reflexivity.
  - assert (KV : In (k, v) (mapOf h b)) by (apply S; now left). destruct (inv_ok _ I _ _ _ KV) as [KO LV].
    assert (SH : forall k' c', In (k', c') (mapOf h a) -> kshape h k') by (intros k' c' X; apply kok_shape; apply (inv_ok _ I _ _ _ X)).
    inversion_clear N as [|? ? NI ND]. cbn [fst] in NI.
    assert (DV : forall e, In e es -> ktexts h (fst e) <> ktexts h k).
    { intros e X Y. apply NI. rewrite <- Y. now apply (in_map (fun e => ktexts h (fst e))). }
    destruct (lookup h (mapOf h a) k) as [c|] eqn:Q.
    + destruct (lookup_some _ _ _ _ SH (kok_shape _ _ KO) Q) as (k' & IN & T). set (h1 := counterAdd h c v).
      assert (LC : (c < List.length (cells h))%nat) by apply (inv_ok _ I _ _ _ IN).
      assert (NB : forall k2, ~ In (k2, c) (mapOf h b)).
      { intros k2 X. apply (F _ _ _ IN X (k, v)); [now left|]. cbn [fst]. now rewrite T. }
      assert (CO : forall c', c' <> c -> cellOf h1 c' = cellOf h c').
      { intros c' X. unfold h1, counterAdd. rewrite cellOf_set by exact LC. destruct (Nat.eqb_spec c' c); [contradiction|reflexivity]. }
      assert (CC : cellOf h1 c = uint64 (cellOf h c + cellOf h v)) by (unfold h1, counterAdd; now rewrite cellOf_set, Nat.eqb_refl by exact LC).
      destruct (IH h1) as (G & AB & AM); auto.
      * now apply inv_setCell.
      * intros e X. apply S. now right.
      * intros k1 c1 k2 X Y e Z. apply (F _ _ _ X Y). now right.
      * split; [|split].
        -- intros d. rewrite G.
           assert (VE : get (map (view h1) es) d = get (map (view h) es) d).
           { f_equal. apply map_ext_in. intros (k2 & c2) X. unfold view. cbn [fst snd]. f_equal. apply CO. intros ->. apply (NB k2). apply S. now right. }
           rewrite VE, get_view_cons. destruct (key_eqb (ktexts h k) d) eqn:KD.
           ++ apply key_eqb_eq in KD. rewrite (get_view_none h es d) by (intros k2 c2 X Y; apply (DV _ X); cbn [fst]; congruence).
              rewrite <- KD, <- T. unfold abs. change (mapOf h1 a) with (mapOf h a).
              rewrite (get_view_in h _ k' c (inv_nodup _ I a) IN).
              change (ktexts h k') with (ktexts h1 k'). rewrite (get_view_in h1 _ k' c (inv_nodup _ I a) IN). rewrite CC. reflexivity.
           ++ f_equal. unfold abs. change (mapOf h1 a) with (mapOf h a). destruct (get (map (view h) (mapOf h a)) d) as [z|] eqn:GZ.
              ** apply get_view_some in GZ as (k2 & c2 & X & E1 & <-). rewrite <- E1. change (ktexts h k2) with (ktexts h1 k2).
                 rewrite (get_view_in h1 _ k2 c2 (inv_nodup _ I a) X). f_equal. apply CO. intros ->.
                 pose proof (inv_cell _ I _ _ _ _ _ IN X) as W. rewrite <- E1, <- W, T in KD. now rewrite key_eqb_refl in KD.
              ** apply get_view_none. intros k2 c2 X Y. change (ktexts h1 k2) with (ktexts h k2) in Y. subst d. now rewrite (get_view_in h _ k2 c2 (inv_nodup _ I a) X) in GZ.
        -- rewrite AB. unfold abs. change (mapOf h1 b) with (mapOf h b). apply map_ext_in. intros (k2 & c2) X. unfold view. cbn [fst snd]. f_equal. apply CO.
           intros ->. now apply (NB k2).
        -- intros m DM DA DB. rewrite AM; auto. unfold abs. change (mapOf h1 m) with (mapOf h m). apply map_ext_in. intros (k2 & c2) X. unfold view. cbn [fst snd]. f_equal. apply CO.
           intros ->. now apply (DA _ _ _ IN X).
    + pose proof (lookup_none h _ k SH (kok_shape _ _ KO) Q) as NA. set (h1 := insert h a k v).
      assert (MO : forall m, mapOf h1 m = if (m =? a)%nat then mapOf h a ++ [(k, v)] else mapOf h m) by (intros; now apply insert_mapOf).
      assert (MB : forall m, m <> a -> mapOf h1 m = mapOf h m) by (intros m X; rewrite MO; destruct (Nat.eqb_spec m a); [contradiction|reflexivity]).
      assert (I1 : inv h1) by (apply inv_insert; auto; intros m' k' X; eapply inv_cell; eauto).
      destruct (IH h1) as (G & AB & AM); auto.
      * cbn. now rewrite setNth_length.
      * intros e X. rewrite MB by auto. apply S. now right.
      * intros k1 c1 k2. rewrite MO, Nat.eqb_refl, MB by auto. intros X Y e Z. change (ktexts h1) with (ktexts h). apply in_app_or in X as [X|[X|[]]].
        -- apply (F _ _ _ X Y). now right.
        -- injection X as <- <-. now apply DV.
      * split; [|split].
        -- intros d. rewrite G. change (view h1) with (view h). unfold abs. rewrite MO, Nat.eqb_refl. change (view h1) with (view h). rewrite map_app.
           rewrite get_view_cons. assert (GA : forall l1 l2, get (l1 ++ l2) d = match get l1 d with Some z => Some z | None => get l2 d end).
           { induction l1 as [|(x & y) l1 IHl]; intros l2; [reflexivity|]. cbn [app get]. destruct (key_eqb x d); auto. }
           rewrite GA, get_view_cons. destruct (key_eqb (ktexts h k) d) eqn:KD.
           ++ apply key_eqb_eq in KD. rewrite (get_view_none h es d) by (intros k2 c2 X Y; apply (DV _ X); cbn [fst]; congruence).
              rewrite (get_view_none h (mapOf h a) d) by (intros k2 c2 X Y; apply (NA _ _ X); congruence). reflexivity.
           ++ destruct (get (map (view h) (mapOf h a)) d); reflexivity.
        -- rewrite AB. unfold abs. now rewrite MB by auto.
        -- intros m DM DA DB. rewrite AM; auto.
           ++ unfold abs. now rewrite MB by auto.
           ++ intros k1 c1 k2. rewrite MO, Nat.eqb_refl, MB by auto. intros X. apply in_app_or in X as [X|[X|[]]]; [now apply (DA k1)|].
              injection X as <- <-. now apply (DB k).
           ++ intros k1 c1 k2. rewrite !MB by auto. apply DB.
Qed.
(** A map added to itself. *)
Lemma addLoop_self : forall a es h, inv h -> (forall e, In e es -> In e (mapOf h a)) -> NoDup (map (fun e => ktexts h (fst e)) es) ->
  mapOf (addLoop h a es) a = mapOf h a /\
  (forall k c, In (k, c) (mapOf h a) -> cellOf (addLoop h a es) c =
    if existsb (fun e => (snd e =? c)%nat) es then uint64 (cellOf h c + cellOf h c) else cellOf h c).
Proof.
  intros a. induction es as [|(k & v) es IH]; intros h I S N; cbn [addLoop]; [auto|].
  assert (KV : In (k, v) (mapOf h a)) by (apply S; now left). destruct (inv_ok _ I _ _ _ KV) as [KO LV].
  assert (SH : forall k' c', In (k', c') (mapOf h a) -> kshape h k') by (intros k' c' X; apply kok_shape; apply (inv_ok _ I _ _ _ X)).
  inversion_clear N as [|? ? NI ND]. cbn [fst] in NI.
  destruct (lookup h (mapOf h a) k) as [c|] eqn:Q.
  2:{ exfalso. apply (lookup_none h _ k SH (kok_shape _ _ KO) Q _ _ KV). reflexivity. }
  destruct (lookup_some _ _ _ _ SH (kok_shape _ _ KO) Q) as (k' & IN & T).
  assert (c = v).
  { pose proof (get_view_in h _ k' c (inv_nodup _ I a) IN) as G1. 
    assert (W : forall l, NoDup (map (fun e => ktexts h (fst e)) l) -> In (k, v) l -> In (k', c) l -> c = v).
    { clear - T. induction l as [|(k0 & c0) l IHl]; intros N0 A B; [destruct A|]. inversion_clear N0 as [|? ? X Y]. cbn [fst] in X.
      destruct A as [A|A], B as [B|B]; [congruence| | |auto]; exfalso; apply X.
      - injection A as -> ->. rewrite <- T. apply in_map_iff. exists (k', c). auto.
      - injection B as -> ->. rewrite T. apply in_map_iff. exists (k, v). auto. }
    apply (W _ (inv_nodup _ I a)); auto. }
  subst c. set (h1 := counterAdd h v v).
  destruct (IH h1) as (M & C); auto.
  { now apply inv_setCell. } { intros e X. apply S. now right. }
  split; [exact M|]. intros k2 c2 X. rewrite (C k2 c2 X). cbn [existsb snd].
  assert (CO : cellOf h1 c2 = if (c2 =? v)%nat then uint64 (cellOf h v + cellOf h v) else cellOf h c2) by (unfold h1, counterAdd; now rewrite cellOf_set by exact LV).
  destruct (Nat.eqb_spec v c2) as [->|NE].
  - replace (existsb (fun e => (snd e =? c2)%nat) es) with false; [cbn [orb]; now rewrite CO, Nat.eqb_refl|]. symmetry.
    destruct (existsb (fun e => (snd e =? c2)%nat) es) eqn:EX; [|reflexivity]. exfalso. apply existsb_exists in EX as ((k3 & c3) & Y & E3). cbn in E3. apply Nat.eqb_eq in E3. subst c3.
    apply NI. rewrite (inv_cell _ I a a k k3 c2 KV (S _ (or_intror Y))). apply in_map_iff. exists (k3, c2). auto.
  - cbn [orb]. rewrite CO. destruct (Nat.eqb_spec c2 v); [congruence|reflexivity].
Qed.

(** * Slots of arrays *)
Definition slots (a : list str) (from n : nat) : list str := firstn n (skipn from a).
Lemma slots_set_out : forall a i s from n, (i < from \/ from + n <= i)%nat -> slots (setNth a i s) from n = slots a from n.
Proof.
  induction a as [|x a IH]; intros i s from n O; [destruct i; reflexivity|]. unfold slots in *.
  destruct i as [|i], from as [|from]; cbn [setNth skipn]; try reflexivity.
  - destruct O as [O|O]; [lia|]. destruct n; [reflexivity|lia].
  - destruct n; [reflexivity|]. cbn [firstn]. f_equal. apply (IH i s 0%nat n). lia.
  - apply IH. lia.
Qed.
Lemma copyTo_length : forall l a from, List.length (copyTo a from l) = List.length a.
Proof. induction l as [|s l IH]; intros a from; [reflexivity|]. cbn. rewrite IH. apply setNth_length. Qed.
Lemma slots_copy_out : forall l a at_ from n, (at_ + List.length l <= from \/ from + n <= at_)%nat -> slots (copyTo a at_ l) from n = slots a from n.
Proof.
  induction l as [|s l IH]; intros a at_ from n O; [reflexivity|]. cbn [copyTo List.length] in *. rewrite IH by lia. apply slots_set_out. lia.
Qed.
Lemma setNth_split : forall A (a : list A) i s, (i < List.length a)%nat -> setNth a i s = firstn i a ++ s :: skipn (S i) a.
Proof.
  induction a as [|x a IH]; intros [|i] s L; cbn in *; try lia; [reflexivity|]. f_equal. apply IH. lia.
Qed.
Lemma skipn_twice : forall A (a : list A) n m, skipn n (skipn m a) = skipn (n + m) a.
Proof.
  intros A a n m. revert a. induction m as [|m IH]; intros a; [now rewrite Nat.add_0_r|].
  rewrite Nat.add_succ_r. destruct a as [|x a]; [now rewrite !skipn_nil|]. cbn [skipn]. apply IH.
Qed.
Lemma copyTo_split : forall l a from, (from + List.length l <= List.length a)%nat ->
  copyTo a from l = firstn from a ++ l ++ skipn (from + List.length l) a.
Proof.
  induction l as [|s l IH]; intros a from L.
  - cbn [copyTo List.length app]. now rewrite Nat.add_0_r, firstn_skipn.
  - cbn [copyTo List.length] in *. rewrite IH by (rewrite setNth_length; lia). rewrite setNth_split by lia.
    assert (LF : List.length (firstn from a) = from) by (rewrite firstn_length; lia).
    rewrite firstn_app, LF. rewrite (firstn_all2 (firstn from a)) by lia. replace (S from - from)%nat with 1%nat by lia. cbn [firstn].
    rewrite <- app_assoc. cbn [app]. do 3 f_equal.
    rewrite skipn_app, LF. rewrite (skipn_all2 (firstn from a)) by lia. cbn [app].
    replace (S from + List.length l - from)%nat with (S (List.length l)) by lia. cbn [skipn].
    replace (from + S (List.length l))%nat with (List.length l + S from)%nat by lia.
    apply (skipn_twice _ a (List.length l) (S from)).
Qed.
Lemma slots_copy_in : forall l a from, (from + List.length l <= List.length a)%nat -> slots (copyTo a from l) from (List.length l) = l.
Proof.
  intros l a from L. rewrite copyTo_split by exact L. unfold slots.
  assert (LF : List.length (firstn from a) = from) by (rewrite firstn_length; lia).
  rewrite skipn_app, LF, Nat.sub_diag. rewrite (skipn_all2 (firstn from a)) by lia. cbn [skipn app].
  rewrite firstn_app, Nat.sub_diag, firstn_all, firstn_O. apply app_nil_r.
Qed.
Lemma stexts_slots : forall h s, stexts h s = map (text h) (slots (arrayOf h (sarray s)) (sfrom s) (slength s)).
Proof. reflexivity. Qed.

(** * The invariant of the world *)
Definition grows (h h' : mem) : Prop :=
  keeps h h' /\ (forall m, incl (mapOf h m) (mapOf h' m)) /\
  (forall a l, nth_error (arrays h) a = Some (false, l) -> exists l', nth_error (arrays h') a = Some (false, l') /\ List.length l' = List.length l).
Definition xok (h : mem) (X : export) : Prop :=
  incl (xtodo X) (mapOf h (xmap X)) /\ xfrom X = (xn X * List.length (xgiven X))%nat /\
  exists l, nth_error (arrays h) (xspace X) = Some (false, l) /\
    List.length l = (xn X * (List.length (xgiven X) + List.length (xtodo X)))%nat /\
    forall i p, nth_error (xgiven X) i = Some p -> gDimension p = mkSlice (xspace X) (xn X * i) (xn X) (List.length l - xn X * i).
Lemma xok_grows : forall h h' X, xok h X -> grows h h' -> xok h' X.
Proof.
  intros h h' X (T & F & l & A & L & G) (K & M & AR). split; [intros e I; apply M; auto|]. split; [exact F|].
  destruct (AR _ _ A) as (l' & A' & L'). exists l'. split; [exact A'|]. rewrite L'. auto.
Qed.
Record winv (w : world) : Prop := mkWinv {
  w_inv : inv (heap w);
  w_x : forall x X, nth_error (exporting w) x = Some X -> xok (heap w) X;
  w_d : forall x y X Y, nth_error (exporting w) x = Some X -> nth_error (exporting w) y = Some Y -> xspace X = xspace Y -> x = y
}.
Lemma winv_grows : forall w h', winv w -> inv h' -> grows (heap w) h' -> winv (mkWorld h' (exporting w)).
Proof.
  intros w h' W I G. constructor; cbn [heap exporting]; [exact I| |apply W]. intros x X E. eapply xok_grows; [eapply w_x; eauto|exact G].
Qed.
Lemma grows_of : forall h h', keeps h h' -> maps h' = maps h ->
  (forall a l, nth_error (arrays h) a = Some (false, l) -> exists l', nth_error (arrays h') a = Some (false, l') /\ List.length l' = List.length l) -> grows h h'.
Proof. intros h h' K M A. split; [exact K|]. split; [|exact A]. intros m. unfold mapOf. rewrite M. apply incl_refl. Qed.
Lemma arrays_prefix : forall h h', (exists ars, arrays h' = arrays h ++ ars) ->
  forall a l, nth_error (arrays h) a = Some (false, l) -> exists l', nth_error (arrays h') a = Some (false, l') /\ List.length l' = List.length l.
Proof. intros h h' (ars & E) a l N. exists l. split; [|reflexivity]. rewrite E, nth_error_app1; [exact N|]. eapply nth_error_lt; eauto. Qed.
Lemma setArray_arrays : forall h a l0 l, nth_error (arrays h) a = Some (false, l0) -> setArray h a l = mkMem (blocks h) (setNth (arrays h) a (false, l)) (cells h) (maps h).
Proof. intros h a l0 l E. unfold setArray. now rewrite E. Qed.
Lemma grows_setArray : forall h a l0 l, nth_error (arrays h) a = Some (false, l0) -> List.length l = List.length l0 -> grows h (setArray h a l).
Proof.
  intros h a l0 l E L. rewrite (setArray_arrays _ _ _ _ E). apply grows_of; [|reflexivity|].
  - split; cbn; [auto|]. intros a' l' E'. destruct (Nat.eq_dec a a') as [->|N]; [congruence|]. now rewrite setNth_other.
  - cbn. intros a' l' E'. destruct (Nat.eq_dec a a') as [->|N].
    + exists l. rewrite setNth_same by (eapply nth_error_lt; eauto). split; [reflexivity|congruence].
    + exists l'. now rewrite setNth_other.
Qed.
Lemma inv_grows_same : forall h h', inv h -> keeps h h' -> maps h' = maps h -> cells h' = cells h -> inv h'.
Proof. intros h h' I K M C. eapply inv_keeps; eauto. now rewrite C. Qed.
Lemma arrayOf_set : forall h a l0 l a', nth_error (arrays h) a = Some (false, l0) -> arrayOf (setArray h a l) a' = if (a' =? a)%nat then l else arrayOf h a'.
Proof.
  intros h a l0 l a' E. rewrite (setArray_arrays _ _ _ _ E). unfold arrayOf. cbn [arrays]. destruct (Nat.eqb_spec a' a) as [->|N].
  - rewrite setNth_same; [reflexivity|]. eapply nth_error_lt; eauto.
  - rewrite setNth_other by auto. reflexivity.
Qed.
Lemma grows_trans : forall a b c, grows a b -> grows b c -> grows a c.
Proof.
  intros a b c (K & M & A) (K' & M' & A'). split; [eapply keeps_trans; eauto|]. split; [intros m; eapply incl_tran; eauto|].
  intros x l E. destruct (A _ _ E) as (l1 & E1 & L1). destruct (A' _ _ E1) as (l2 & E2 & L2). exists l2. split; [exact E2|congruence].
Qed.
Lemma grows_same : forall h h', blocks h' = blocks h -> arrays h' = arrays h -> maps h' = maps h -> grows h h'.
Proof. intros h h' B A M. apply grows_of; [now apply keeps_same|exact M|]. rewrite A. eauto. Qed.

(** What the step of an export does. *)
Lemma exportEntry_spec : forall h X k c, inv h -> xok h X -> In (k, c) (xtodo X) ->
  let h' := fst (exportEntry h X k c) in let p := snd (exportEntry h X k c) in
  inv h' /\ grows h h' /\ maps h' = maps h /\ cells h' = setNth (cells h) c 0 /\ blocks h' = blocks h /\
  (forall a, a <> xspace X -> arrayOf h' a = arrayOf h a) /\
  (forall from n, (from + n <= xfrom X)%nat -> slots (arrayOf h' (xspace X)) from n = slots (arrayOf h (xspace X)) from n) /\
  gDimension p = mkSlice (xspace X) (xfrom X) (xn X) (List.length (arrayOf h (xspace X)) - xfrom X) /\ gValue p = float64 (cellOf h c) /\
  List.length (arrayOf h' (xspace X)) = List.length (arrayOf h (xspace X)) /\
  (List.length (ktexts h k) = xn X -> slots (arrayOf h' (xspace X)) (xfrom X) (xn X) = kstrs h k).
Proof.
  intros h X k c I (T & F & l & A & L & G) IN. cbn zeta. unfold exportEntry. cbn [fst snd].
  assert (AO : arrayOf h (xspace X) = l) by (unfold arrayOf; now rewrite A). rewrite AO.
  set (from := match k with KZero => [] | KArray _ a => firstn (xn X) (arrayOf h a) end).
  assert (CL : List.length (copyTo l (xfrom X) from) = List.length l) by apply copyTo_length.
  pose proof (grows_setArray _ _ _ _ A CL) as GR.
  assert (MP : maps (setArray h (xspace X) (copyTo l (xfrom X) from)) = maps h) by (now rewrite (setArray_arrays _ _ _ _ A)).
  assert (CE : cells (setArray h (xspace X) (copyTo l (xfrom X) from)) = cells h) by (now rewrite (setArray_arrays _ _ _ _ A)).
  assert (BL : blocks (setArray h (xspace X) (copyTo l (xfrom X) from)) = blocks h) by (now rewrite (setArray_arrays _ _ _ _ A)).
  assert (AS : forall a, arrayOf (setArray h (xspace X) (copyTo l (xfrom X) from)) a = if (a =? xspace X)%nat then copyTo l (xfrom X) from else arrayOf h a).
  { intros a. now apply (arrayOf_set _ _ _ _ _ A). }
  assert (LT : (1 <= List.length (xtodo X))%nat) by (destruct (xtodo X); [destruct IN|cbn; lia]).
  assert (SP : (xfrom X + xn X <= List.length l)%nat) by nia.
  split; [apply inv_setCell; apply (inv_grows_same h); auto; apply GR|].
  split; [apply (grows_trans _ _ _ GR); now apply grows_same|].
  split; [|split; [|split; [|split; [|split; [|split; [|split; [|split]]]]]]].
  - exact MP.
  - cbn [setCell cells]. now rewrite CE.
  - exact BL.
  - intros a N. change (arrayOf (setCell ?h _ _) a) with (arrayOf h a). rewrite AS. destruct (Nat.eqb_spec a (xspace X)); [contradiction|reflexivity].
  - intros f n O. change (arrayOf (setCell ?h _ _) ?a) with (arrayOf h a). rewrite AS, Nat.eqb_refl. apply slots_copy_out. lia.
  - reflexivity.
  - cbn [gValue]. unfold cellOf. now rewrite CE.
  - change (arrayOf (setCell ?h _ _) ?a) with (arrayOf h a). rewrite AS, Nat.eqb_refl. exact CL.
  - intros KL. change (arrayOf (setCell ?h _ _) ?a) with (arrayOf h a). rewrite AS, Nat.eqb_refl.
    assert (FK : from = kstrs h k).
    { unfold from. destruct k as [|n a]; [reflexivity|]. cbn [kstrs]. pose proof (kok_shape _ _ (proj1 (inv_ok _ I _ _ _ (T _ IN)))) as SH.
      rewrite (ktexts_length _ _ _ SH) in KL. now rewrite KL. }
    unfold ktexts in KL. rewrite map_length, <- FK in KL. rewrite <- FK. rewrite <- KL. apply slots_copy_in. lia.
Qed.

Lemma valid_props : forall h p, forallb (fun p => match p with Some s => valid h s | None => true end) p = true -> forall s, In (Some s) p -> valid h s = true.
Proof. intros h p F s I. rewrite forallb_forall in F. exact (F _ I). Qed.
Lemma remove_incl : forall A (l : list A) i, incl (firstn i l ++ skipn (S i) l) l.
Proof.
  intros A l i e I. apply in_app_or in I as [I|I].
  - rewrite <- (firstn_skipn i l). apply in_or_app. now left.
  - rewrite <- (firstn_skipn (S i) l). apply in_or_app. now right.
Qed.
Lemma remove_length : forall A (l : list A) i, (i < List.length l)%nat -> S (List.length (firstn i l ++ skipn (S i) l)) = List.length l.
Proof. intros A l i L. rewrite app_length, firstn_length, skipn_length. lia. Qed.
Lemma mapOf_new : forall h m, nth m (maps h ++ [[]]) [] = mapOf h m.
Proof.
  intros h m. unfold mapOf. destruct (Nat.ltb_spec m (List.length (maps h))); [now apply app_nth1|].
  rewrite (nth_overflow (maps h)) by lia. rewrite app_nth2 by lia. destruct (m - List.length (maps h))%nat as [|[|n]]; reflexivity.
Qed.

(** The events one by one. *)
Lemma step_handle : forall w m indices p w', winv w -> mstep w (MHandle m indices p) = Some w' ->
  exists h', w' = mkWorld h' (exporting w) /\ Handle (heap w) m indices p = Some h' /\ (m < List.length (maps (heap w)))%nat /\
    (forall s, In (Some s) p -> valid (heap w) s = true).
Proof.
  intros w m indices p w' W E. cbn [mstep] in E. destruct (busy w m || negb (m <? List.length (maps (heap w)))%nat || negb (forallb (fun p => match p with Some s => valid (heap w) s | None => true end) p)) eqn:B; [discriminate|].
  apply orb_false_iff in B as [B1 B2]. apply orb_false_iff in B1 as [_ B1]. apply negb_false_iff in B1, B2. apply Nat.ltb_lt in B1.
  destruct (Handle (heap w) m indices p) as [h'|] eqn:H; cbn [obind] in E; [|discriminate]. injection E as <-. exists h'. repeat split; auto.
  now apply valid_props.
Qed.
Lemma step_add : forall w a b order w', mstep w (MAdd a b order) = Some w' ->
  exists es, arrange order (mapOf (heap w) b) = Some es /\ w' = mkWorld (addLoop (heap w) a es) (exporting w) /\ (a < List.length (maps (heap w)))%nat /\
    (b < List.length (maps (heap w)))%nat.
Proof.
  intros w a b order w' E. cbn [mstep] in E.
  destruct (busy w a || busy w b || negb (a <? List.length (maps (heap w)))%nat || negb (b <? List.length (maps (heap w)))%nat) eqn:B; [discriminate|].
  apply orb_false_iff in B as [B1 B2]. apply orb_false_iff in B1 as [_ B1]. apply negb_false_iff in B1, B2. apply Nat.ltb_lt in B1, B2.
  destruct (arrange order (mapOf (heap w) b)) as [es|]; cbn [obind] in E; [|discriminate]. injection E as <-. exists es. auto.
Qed.
Lemma step_next : forall w x i w', mstep w (MNext x i) = Some w' ->
  exists X k c, nth_error (exporting w) x = Some X /\ nth_error (xtodo X) i = Some (k, c) /\
    w' = mkWorld (fst (exportEntry (heap w) X k c)) (setNth (exporting w) x
      (mkExport (xmap X) (xn X) (xspace X) (xfrom X + xn X) (firstn i (xtodo X) ++ skipn (S i) (xtodo X)) (xgiven X ++ [snd (exportEntry (heap w) X k c)]))).
Proof.
  intros w x i w' E. cbn [mstep] in E. destruct (nth_error (exporting w) x) as [X|] eqn:N; cbn [obind] in E; [|discriminate].
  destruct (nth_error (xtodo X) i) as [(k & c)|] eqn:M; cbn [obind] in E; [|discriminate].
  exists X, k, c. split; [reflexivity|]. split; [exact M|]. destruct (exportEntry (heap w) X k c) as (h' & p). injection E as <-. reflexivity.
Qed.

Definition unchanged (w w' : world) : Prop :=
  forall x X i, nth_error (exporting w) x = Some X -> (i < List.length (xgiven X))%nat ->
    slots (arrayOf (heap w') (xspace X)) (xn X * i) (xn X) = slots (arrayOf (heap w) (xspace X)) (xn X * i) (xn X).
Definition persists (w w' : world) : Prop :=
  forall x X, nth_error (exporting w) x = Some X -> exists X', nth_error (exporting w') x = Some X' /\
    xspace X' = xspace X /\ xn X' = xn X /\ xmap X' = xmap X /\ exists l, xgiven X' = xgiven X ++ l.
Lemma persists_same : forall w h', persists w (mkWorld h' (exporting w)).
Proof. intros w h' x X E. exists X. repeat split; auto. exists []. now rewrite app_nil_r. Qed.
Lemma unchanged_prefix : forall w w', winv w -> (exists ars, arrays (heap w') = arrays (heap w) ++ ars) -> unchanged w w'.
Proof.
  intros w w' W (ars & E) x X i N L. destruct (w_x _ W _ _ N) as (_ & _ & l & A & _). unfold arrayOf. rewrite E, nth_error_app1; [reflexivity|].
  eapply nth_error_lt; eauto.
Qed.
Lemma mstep_all : forall w e w', winv w -> mstep w e = Some w' ->
  winv w' /\ grows (heap w) (heap w') /\ persists w w' /\
  ((forall a i s, e <> PSet a i s) -> unchanged w w').
Proof.
  intros w e w' W E. pose proof (w_inv _ W) as I. destruct e.
  - cbn [mstep] in E. injection E as <-. assert (G : grows (heap w) (newBlock (heap w) false b)).
    { apply grows_of; [apply keeps_newBlock|reflexivity|]. apply arrays_prefix. exists []. cbn. now rewrite app_nil_r. }
    split; [|split; [exact G|split; [apply persists_same|]]].
    + apply winv_grows; auto. apply (inv_grows_same (heap w)); auto. apply G.
    + intros _. apply unchanged_prefix; auto. exists []. cbn. now rewrite app_nil_r.
  - cbn [mstep] in E. injection E as <-. assert (G : grows (heap w) (newArray (heap w) false l)).
    { apply grows_of; [apply keeps_newArray|reflexivity|]. apply arrays_prefix. eexists. reflexivity. }
    split; [|split; [exact G|split; [apply persists_same|]]].
    + apply winv_grows; auto. apply (inv_grows_same (heap w)); auto. apply G.
    + intros _. apply unchanged_prefix; auto. eexists. reflexivity.
  - cbn [mstep] in E. destruct (nth_error (blocks (heap w)) block) as [([|] & b0)|] eqn:N; try discriminate. injection E as <-.
    match goal with |- context [mkWorld ?h _] => set (h' := h) end.
    assert (G : grows (heap w) h').
    { apply grows_of; [|reflexivity|]. 2:{ apply arrays_prefix. exists []. cbn. now rewrite app_nil_r. }
      split; cbn; [|auto]. intros b1 t Q. destruct (Nat.eq_dec block b1) as [->|D]; [congruence|]. now rewrite setNth_other. }
    split; [|split; [exact G|split; [apply persists_same|]]].
    + apply winv_grows; auto. apply (inv_grows_same (heap w)); auto. apply G.
    + intros _. apply unchanged_prefix; auto. exists []. cbn. now rewrite app_nil_r.
  - cbn [mstep] in E. destruct (nth_error (arrays (heap w)) array) as [([|] & l)|] eqn:N; try discriminate. injection E as <-.
    pose proof (grows_setArray _ _ _ (setNth l i s) N (setNth_length _ _ _ _)) as G.
    split; [|split; [exact G|split; [apply persists_same|]]].
    + apply winv_grows; auto. apply (inv_grows_same (heap w)); auto; [apply G| |]; now rewrite (setArray_arrays _ _ _ _ N).
    + intros C. destruct (C array i s). reflexivity.
  - cbn [mstep] in E. injection E as <-. match goal with |- context [mkWorld ?h _] => set (h' := h) end.
    assert (MO : forall m, mapOf h' m = mapOf (heap w) m) by (intros m; apply mapOf_new).
    assert (G : grows (heap w) h').
    { split; [now apply keeps_same|]. split; [intros m; rewrite MO; apply incl_refl|]. apply arrays_prefix. exists []. cbn. now rewrite app_nil_r. }
    split; [|split; [exact G|split; [apply persists_same|]]].
    + apply winv_grows; auto. constructor.
      * intros m k c. rewrite MO. apply I.
      * intros m. rewrite MO. apply I.
      * intros m m' k k' c. rewrite !MO. apply I.
    + intros _. apply unchanged_prefix; auto. exists []. cbn. now rewrite app_nil_r.
  - destruct (step_handle _ _ _ _ _ W E) as (h' & -> & H & L & V).
    destruct (Handle_spec _ _ _ _ _ I L V H) as (strs & P & K & I' & BG & AG & ML & (l & MA) & MO & _).
    assert (G : grows (heap w) h').
    { split; [exact K|]. split; [|now apply arrays_prefix]. intros m'. destruct (Nat.eq_dec m' m) as [->|D]; [rewrite MA; apply incl_appl, incl_refl|].
      rewrite MO by exact D. apply incl_refl. }
    split; [|split; [exact G|split; [apply persists_same|]]].
    + now apply winv_grows.
    + intros _. now apply unchanged_prefix.
  - cbn [mstep] in E. destruct (busy w m || negb (m <? List.length (maps (heap w)))%nat); [discriminate|]. injection E as <-.
    match goal with |- context [newArray (heap w) false ?l0] => set (l := l0) end.
    assert (G : grows (heap w) (newArray (heap w) false l)).
    { apply grows_of; [apply keeps_newArray|reflexivity|]. apply arrays_prefix. eexists. reflexivity. }
    assert (SPL : forall x X, nth_error (exporting w) x = Some X -> (xspace X < List.length (arrays (heap w)))%nat).
    { intros x X Q. destruct (w_x _ W _ _ Q) as (_ & _ & l0 & A & _). eapply nth_error_lt; eauto. }
    assert (NE : forall x X, nth_error (exporting w ++ [mkExport m dimensionElemCount (List.length (arrays (heap w))) 0 (mapOf (heap w) m) []]) x = Some X ->
      (nth_error (exporting w) x = Some X) \/ (x = List.length (exporting w) /\ X = mkExport m dimensionElemCount (List.length (arrays (heap w))) 0 (mapOf (heap w) m) [])).
    { intros x X. rewrite nth_error_snoc. destruct (Nat.eqb_spec x (List.length (exporting w))); [right|now left]. split; [assumption|congruence]. }
    split; [|split; [exact G|split]].
    + constructor; cbn [heap exporting].
      * apply (inv_grows_same (heap w)); auto. apply G.
      * intros x X Q. apply NE in Q as [Q|(_ & ->)]; [eapply xok_grows; [eapply w_x; eauto|exact G]|].
        split; [apply incl_refl|]. split; [cbn; lia|]. exists l. cbn [xspace xn xgiven xtodo]. split.
        { cbn. rewrite nth_error_snoc, Nat.eqb_refl. reflexivity. }
        split; [unfold l; rewrite repeat_length; cbn; lia|]. intros [|i] p Q; discriminate Q.
      * intros x y X Y Q R S. apply NE in Q as [Q|(-> & ->)]; apply NE in R as [R|(-> & ->)]; auto.
        -- eapply (w_d _ W); eauto.
        -- apply SPL in Q. cbn in S. lia.
        -- apply SPL in R. cbn in S. lia.
    + intros x X Q. exists X. cbn [exporting]. rewrite nth_error_app1 by (eapply nth_error_lt; eauto). repeat split; auto. exists []. now rewrite app_nil_r.
    + intros _. apply unchanged_prefix; auto. eexists. reflexivity.
  - destruct (step_next _ _ _ _ E) as (X & k & c & N & T & ->). pose proof (w_x _ W _ _ N) as XO.
    destruct (exportEntry_spec _ _ _ _ I XO (nth_error_In _ _ T)) as (I' & G & MP & CE & BL & AO & SL & GD & GV & LN & _).
    set (h' := fst (exportEntry (heap w) X k c)) in *. set (p := snd (exportEntry (heap w) X k c)) in *.
    set (X' := mkExport (xmap X) (xn X) (xspace X) (xfrom X + xn X) (firstn i (xtodo X) ++ skipn (S i) (xtodo X)) (xgiven X ++ [p])) in *.
    assert (NE : forall y Y, nth_error (setNth (exporting w) x X') y = Some Y -> (y = x /\ Y = X') \/ (y <> x /\ nth_error (exporting w) y = Some Y)).
    { intros y Y Q. destruct (Nat.eq_dec x y) as [<-|D].
      - rewrite setNth_same in Q by (eapply nth_error_lt; eauto). left. split; congruence.
      - rewrite setNth_other in Q by exact D. right. auto. }
    split; [|split; [exact G|split]].
    + constructor; cbn [heap exporting].
      * exact I'.
      * intros y Y Q. apply NE in Q as [(-> & ->)|(D & Q)]; [|eapply xok_grows; [eapply w_x; eauto|exact G]].
        destruct XO as (TI & F & l & A & L & GI). destruct G as (GK & GM & GA). destruct (GA _ _ A) as (l' & A' & L').
        pose proof (remove_length _ (xtodo X) i (nth_error_lt _ _ _ _ T)) as RL.
        split; [|split].
        -- cbn [X' xtodo xmap]. intros e Q. apply GM, TI. now apply remove_incl in Q.
        -- cbn [X' xfrom xn xgiven]. rewrite app_length, F. cbn. lia.
        -- exists l'. cbn [X' xspace xn xgiven xtodo]. split; [exact A'|]. split.
           ++ rewrite L', L, app_length, <- RL. cbn. lia.
           ++ intros j q. rewrite nth_error_snoc. destruct (Nat.eqb_spec j (List.length (xgiven X))) as [->|].
              ** intros Q. injection Q as <-. rewrite GD. unfold arrayOf at 1. rewrite A. rewrite L', <- F. reflexivity.
              ** intros Q. rewrite L'. now apply GI.
      * intros y z Y Z Q R S. apply NE in Q as [(-> & ->)|(D & Q)]; apply NE in R as [(-> & ->)|(D' & R)]; auto.
        -- eapply (w_d _ W); [exact N|exact R|exact S].
        -- eapply (w_d _ W); [exact Q|exact N|exact S].
        -- eapply (w_d _ W); eauto.
    + intros y Y Q. cbn [exporting]. destruct (Nat.eq_dec x y) as [<-|D].
      * exists X'. rewrite setNth_same by (eapply nth_error_lt; eauto). assert (Y = X) by congruence. subst Y. repeat split; auto. eexists. reflexivity.
      * exists Y. rewrite setNth_other by exact D. repeat split; auto. exists []. now rewrite app_nil_r.
    + intros _ y Y j Q L. cbn [heap]. destruct (Nat.eq_dec x y) as [<-|D].
      * assert (Y = X) by congruence. subst Y. apply SL. destruct XO as (_ & -> & _). nia.
      * rewrite AO; [reflexivity|]. intros Z. apply D. eapply (w_d _ W); eauto.
  - destruct (step_add _ _ _ _ _ E) as (es & AR & -> & L & L').
    assert (S : forall e, In e es -> In e (mapOf (heap w) that)) by (intros e Q; eapply Permutation_in; [eapply arrange_perm; eauto|exact Q]).
    destruct (addLoop_inv monoid that es (heap w) I L S) as (I' & B & A & M & (l & MA) & MO).
    assert (G : grows (heap w) (addLoop (heap w) monoid es)).
    { split; [now apply keeps_same|]. split.
      - intros m. destruct (Nat.eq_dec m monoid) as [->|D]; [rewrite MA; apply incl_appl, incl_refl|]. rewrite MO by exact D. apply incl_refl.
      - rewrite A. eauto. }
    split; [|split; [exact G|split; [apply persists_same|]]].
    + now apply winv_grows.
    + intros _. apply unchanged_prefix; auto. exists []. cbn. now rewrite A, app_nil_r.
Qed.
Lemma winv_start : winv start.
Proof.
  constructor.
  - constructor.
    + intros m k c X. unfold mapOf in X. cbn in X. destruct m; destruct X.
    + intros m. unfold mapOf. cbn. destruct m; constructor.
    + intros m m' k k' c X. unfold mapOf in X. cbn in X. destruct m; destruct X.
  - intros [|x] X E; discriminate E.
  - intros [|x] y X Y E; discriminate E.
Qed.
Lemma mruns_winv : forall evs w w', winv w -> mruns w evs = Some w' -> winv w'.
Proof.
  induction evs as [|e evs IH]; intros w w' W E; cbn [mruns] in E; [injection E as <-; exact W|].
  destruct (mstep w e) as [w1|] eqn:Q; cbn [obind] in E; [|discriminate]. eapply IH; [|exact E]. eapply mstep_all; eauto.
Qed.
Lemma reached_winv : forall w, reached w -> winv w.
Proof. intros w (evs & E). eapply mruns_winv; [apply winv_start|exact E]. Qed.
