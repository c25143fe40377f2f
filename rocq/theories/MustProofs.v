From Coq Require Import Permutation.
From Verif Require Import Base AssertModel AssertSpec AssertProofs.

(** * Equality of documents *)
Lemma same_refl : forall x, same x x.
Proof.
  induction x as [|b|z|s|l IH|l IH] using doc_rect'; constructor.
  - induction IH; constructor; auto.
  - tauto.
  - intros k x y G G'. rewrite G in G'. injection G' as <-. rewrite Forall_forall in IH. exact (IH _ (get_some_in _ _ _ G)).
Qed.
Lemma same_sym : forall x y, same x y -> same y x.
Proof.
  induction x as [|b|z|s|l IH|l IH] using doc_rect'; intros y H; inversion H as [| | | |? m F|? m K E]; subst; try constructor.
  - clear H. revert IH. induction F; intro IH; constructor; inversion IH; subst; auto.
  - intro k. rewrite K. tauto.
  - intros k x y G G'. rewrite Forall_forall in IH. apply (IH _ (get_some_in _ _ _ G')). eauto.
Qed.
Lemma same_trans : forall x y z, same x y -> same y z -> same x z.
Proof.
  induction x as [|b|u|s|l IH|l IH] using doc_rect'; intros y z H H'; inversion H as [| | | |? m F|? m K E]; subst; auto.
  - inversion H' as [| | | |? n F'|]; subst. constructor. clear H H'. revert n F' IH. induction F; intros n F' IH; inversion F'; subst; constructor; inversion IH; subst; eauto.
  - inversion H' as [| | | | |? n K' E']; subst. constructor.
    + intro k. rewrite K. apply K'.
    + intros k x y G G'. destruct (get k m) as [w|] eqn:Gm; [|apply K in Gm; congruence]. rewrite Forall_forall in IH. eapply (IH _ (get_some_in _ _ _ G)); eauto.
Qed.

Lemma isVar_iff : forall s, isVar s = true <-> braces s.
Proof.
  intro s. unfold braces. split.
  - destruct s as [|c s]; [discriminate|]. unfold isVar. rewrite andb_true_iff, !Z.eqb_eq. intros [-> L]. destruct s as [|d s] using rev_ind; [discriminate L|]. clear IHs.
    change (123 :: s ++ [d]) with ((123 :: s) ++ [d]) in L. rewrite last_last in L. subst. exists s. reflexivity.
  - intros (t & ->). change (bs "{" ++ t ++ bs "}") with (123 :: t ++ [125]). unfold isVar. change (123 :: t ++ [125]) with ((123 :: t) ++ [125]). rewrite last_last. reflexivity.
Qed.

(** * Paths *)
Lemma part_app : forall p d r, part d (p ++ r) = let? x := part d p in part x r.
Proof.
  induction p as [|[k|i] p IH]; intros d r; [reflexivity| |]; cbn [app part]; destruct d; try reflexivity.
  - destruct (get k l); [apply IH|reflexivity].
  - destruct (nth_error l i); [apply IH|reflexivity].
Qed.
Lemma part_wf : forall p d x, wf d -> part d p = Some x -> wf x.
Proof.
  induction p as [|[k|i] p IH]; intros d x W; cbn [part]; [intros [= <-]; exact W| |]; destruct d; try discriminate.
  - destruct (get k l) as [y|] eqn:G; [|discriminate]. apply IH. eapply wf_get; eauto.
  - destruct (nth_error l i) as [y|] eqn:G; [|discriminate]. apply IH. inversion W as [| | | |? F|]; subst. rewrite Forall_forall in F. apply F. eapply nth_error_In; eauto.
Qed.
Lemma part_depth : forall p d x, part d p = Some x -> (depth x <= depth d)%nat.
Proof.
  induction p as [|[k|i] p IH]; intros d x; cbn [part]; [intros [= <-]; lia| |]; destruct d; try discriminate.
  - destruct (get k l) as [y|] eqn:G; [|discriminate]. intro P. apply IH in P. apply depth_get in G. lia.
  - destruct (nth_error l i) as [y|] eqn:G; [|discriminate]. intro P. apply IH in P. apply nth_error_In in G. apply depth_in in G. lia.
Qed.
Lemma part_plain : forall p d x, plain d -> part d p = Some x -> plain x.
Proof.
  induction p as [|[k|i] p IH]; intros d x W; cbn [part]; [intros [= <-]; exact W| |]; destruct d; try discriminate.
  - destruct (get k l) as [y|] eqn:G; [|discriminate]. apply IH. inversion W as [? H|?|? N1 N2]; subst; [eapply H; eauto|destruct (N1 l eq_refl)].
  - destruct (nth_error l i) as [y|] eqn:G; [|discriminate]. apply IH. inversion W as [?|? F|? N1 N2]; subst; [|destruct (N2 l eq_refl)]. rewrite Forall_forall in F. apply F. eapply nth_error_In; eauto.
Qed.

Definition loads (side : bool) (p : list place) : nat -> list doc -> list hv :=
  fix go i l := match l with [] => [] | x :: l => load side (p ++ [PIndex i]) x :: go (S i) l end.
Lemma load_slice : forall side p l, load side p (DSlice l) = HSlice (loads side p 0 l).
Proof. reflexivity. Qed.
Lemma get_map : forall (f : bytes -> doc -> hv) k l, get k (map (fun '(k, x) => (k, f k x)) l) = option_map (f k) (get k l).
Proof.
  intros f k l. induction l as [|[k' x] l IH]; [reflexivity|]. cbn [map get]. destruct (list_eq_dec Z.eq_dec k' k) as [->|N]; [reflexivity|exact IH].
Qed.
Lemma map_fst_map : forall (f : bytes -> doc -> hv) l, map fst (map (fun '(k, x) => (k, f k x)) l) = map fst l.
Proof. intros f l. induction l as [|[k x] l IH]; [reflexivity|]. cbn [map fst]. now rewrite IH. Qed.

(** Two maps are equal when they have the same keys and equal members *)
Lemma maps_equal : forall (f : hv -> hv -> bool) L M, NoDup (map fst L) -> NoDup (map fst M) ->
  (Nat.eqb (List.length L) (List.length M) && forallb (fun '(k, v) => match get k M with Some w => f v w | None => false end) L = true <->
   (forall k, get k L = None <-> get k M = None) /\ forall k v w, get k L = Some v -> get k M = Some w -> f v w = true).
Proof.
  intros f L M NL NM. rewrite andb_true_iff, Nat.eqb_eq, forallb_forall. split.
  - intros [Len H]. assert (H' : forall k v, get k L = Some v -> match get k M with Some w => f v w | None => false end = true) by (intros k v G; exact (H _ (get_some_in _ _ _ G))). split.
    + apply keys_same; auto. intros k G. destruct (get k L) as [v|] eqn:E; [|reflexivity]. specialize (H' _ _ E). rewrite G in H'. discriminate.
    + intros k v w G G'. specialize (H' _ _ G). rewrite G' in H'. exact H'.
  - intros [K H]. split; [now apply keys_length|]. intros [k v] I. apply in_get in I; [|exact NL]. destruct (get k M) as [w|] eqn:G; [eauto|]. apply K in G. congruence.
Qed.

(** What matches whatever the variables are *)
Inductive fits : doc -> doc -> Prop :=
| fits_bool : forall b, fits (DBool b) (DBool b)
| fits_num : forall x, fits (DNum x) (DNum x)
| fits_str : forall s, fits (DStr s) (DStr s)
| fits_slice : forall l m, Forall2 fits l m -> fits (DSlice l) (DSlice m)
| fits_map : forall l m,
    (forall k, get k l <> Some (DStr ANY) -> (get k l = None <-> get k m = None)) ->
    (forall k x y, get k l = Some x -> ~ is_variable x -> get k m = Some y -> fits x y) -> fits (DMap l) (DMap m).
Lemma matches_fits : forall env e a, matches env e a -> fits e a.
Proof.
  intros env e. induction e as [|b|z|s|l IH|l IH] using doc_rect'; intros a M; inversion M as [| | |? m F|? m K Hv Hm]; subst; try constructor.
  - clear M. revert IH. induction F; intro IH; constructor; inversion IH; subst; auto.
  - exact K.
  - intros k x y G N G'. rewrite Forall_forall in IH. apply (IH _ (get_some_in _ _ _ G)). eauto.
Qed.

(** * Two documents whose expected one has no variables for keys *)
Section Run.
  Variables E A : doc.
  Hypothesis (WE : wf E) (WA : wf A) (PE : plain E).
  Notation orig := (heapOf E A).

  Definition both (q : list place) : Prop := exists l m, part E q = Some (DMap l) /\ part A q = Some (DMap m).
  (** The members in the end *)
  Definition fget (side : bool) (q : list place) (k : bytes) : option hv :=
    match part E q, part A q with
    | Some (DMap l), Some (DMap m) =>
      if side then
        match get k l with
        | None => None
        | Some (DStr s) =>
          if list_eq_dec Z.eq_dec s ANY then Some (HStr s)
          else match get k m with Some y => if isVar s then Some (load false (q ++ [PKey k]) y) else Some (HStr s) | None => Some (HStr s) end
        | Some x => Some (load true (q ++ [PKey k]) x)
        end
      else if match get k l with Some (DStr s) => if list_eq_dec Z.eq_dec s ANY then true else false | _ => false end then Some (HStr ANY)
      else option_map (load false (q ++ [PKey k])) (get k m)
    | _, _ => get k (orig (side, q))
    end.
  Definition okAt (h : heap) (side : bool) (q : list place) : Prop := NoDup (map fst (h (side, q))) /\ forall k, get k (h (side, q)) = fget side q k.

  Definition denotes (v : hv) (y : doc) : Prop := exists q s, v = load false q y /\ part A q = Some y /\ part E q = Some (DStr s).
  Definition Inv (s : state) : Prop :=
    (forall side q, ~ both q -> hp s (side, q) = orig (side, q)) /\
    (forall name v, get name (vars s) = Some v -> subs v = [] /\ exists y, denotes (value v) y).
  Definition V (s : state) (env : bytes -> doc) : Prop := forall name v, get name (vars s) = Some v -> exists y, denotes (value v) y /\ same (env name) y.
  (** The variables at and below p have the values of env *)
  Definition here (env : bytes -> doc) (q : list place) : Prop := forall name y, part E q = Some (DStr name) -> braces name -> name <> ANY -> part A q = Some y -> same (env name) y.
  Definition cons (env : bytes -> doc) (p : list place) : Prop := forall r k, here env (p ++ r ++ [PKey k]).
  Definition nonull (p : list place) : Prop := forall r, part E (p ++ r) = Some DNull -> part A (p ++ r) = None.

  Lemma orig_nodup : forall side q, NoDup (map fst (orig (side, q))).
  Proof.
    intros side q. unfold heapOf. destruct (part (if side then E else A) q) as [[| | | | |l]|] eqn:P; try constructor. rewrite map_fst_map. apply wf_nodup. destruct side; [exact (part_wf _ _ _ WE P)|exact (part_wf _ _ _ WA P)].
  Qed.
  Lemma notboth_ok : forall s side q, Inv s -> ~ both q -> okAt (hp s) side q.
  Proof.
    intros s side q [I _] N. unfold okAt. rewrite (I side q N). split; [apply orig_nodup|]. intro k. unfold fget.
    destruct (part E q) as [[| | | | |l]|] eqn:PE'; try reflexivity. destruct (part A q) as [[| | | | |m]|] eqn:PA'; try reflexivity. destruct N. exists l, m. auto.
  Qed.
  Lemma under_string : forall q r s, part E q = Some (DStr s) -> ~ both (q ++ r).
  Proof. intros q r s P (l & m & P' & _). rewrite part_app, P in P'. cbn [obind] in P'. destruct r as [|[k|i] r]; discriminate P'. Qed.
  Lemma under_missing : forall q r, part A q = None -> ~ both (q ++ r).
  Proof. intros q r P (l & m & _ & P'). rewrite part_app, P in P'. discriminate P'. Qed.
  Lemma under_missing' : forall q r, part E q = None -> ~ both (q ++ r).
  Proof. intros q r P (l & m & P' & _). rewrite part_app, P in P'. discriminate P'. Qed.

  (** Comparing parts of the actual document below strings of the expected one *)
  Lemma deep_actual : forall h n q q' x y, (forall r, h (false, q ++ r) = orig (false, q ++ r)) -> (forall r, h (false, q' ++ r) = orig (false, q' ++ r)) ->
    part A q = Some x -> part A q' = Some y -> (depth x <= n)%nat -> (deepEqual n h (load false q x) (load false q' y) = true <-> same x y).
  Proof.
    intros h n. induction n as [|n IH]; intros q q' x y Hq Hq' Px Py D; [pose proof (depth_pos x); lia|].
    destruct x as [|b|z|s|l|l].
    - destruct y; cbn; (split; [intro; try discriminate; constructor|intro H; inversion H; reflexivity]).
    - destruct y as [|b'| | | |]; cbn; try (split; [discriminate|intro H; inversion H]). split; [intro H; apply eqb_prop in H; subst; constructor|intro H; inversion H; apply eqb_reflx].
    - destruct y as [| |z'| | |]; cbn; try (split; [discriminate|intro H; inversion H]). split; [intro H; apply Z.eqb_eq in H; subst; constructor|intro H; inversion H; apply Z.eqb_refl].
    - destruct y as [| | |s'| |]; cbn; try (split; [discriminate|intro H; inversion H]). destruct (list_eq_dec Z.eq_dec s s') as [->|N].
      + split; [constructor|reflexivity].
      + split; [discriminate|intro H; inversion H; congruence].
    - destruct y as [| | | |m|]; try (cbn; split; [discriminate|intro H; inversion H]; fail). rewrite !load_slice. cbn [deepEqual].
      transitivity (Forall2 same l m); [|split; [constructor; auto|intro H; inversion H; auto]].
      assert (G : forall i l' m', (forall j, nth_error l' j = nth_error l (i + j)) -> (forall j, nth_error m' j = nth_error m (i + j)) ->
        ((fix both l m := match l, m with [], [] => true | a :: l, b :: m => deepEqual n h a b && both l m | _, _ => false end) (loads false q i l') (loads false q' i m') = true <-> Forall2 same l' m')).
      { intros i l'. revert i. induction l' as [|a l' IHl]; intros i [|c m'] Nl Nm; cbn [loads].
        - split; constructor.
        - split; [discriminate|intro H; inversion H].
        - split; [discriminate|intro H; inversion H].
        - rewrite andb_true_iff. rewrite (IHl (S i)).
          + pose proof (Nl 0%nat) as N0. pose proof (Nm 0%nat) as M0. rewrite Nat.add_0_r in N0, M0. cbn [nth_error] in N0, M0.
            rewrite (IH (q ++ [PIndex i]) (q' ++ [PIndex i]) a c).
            * split; [intros [P Q]; constructor; auto|intro H; inversion H; auto].
            * intro r. rewrite <- app_assoc. apply Hq.
            * intro r. rewrite <- app_assoc. apply Hq'.
            * rewrite part_app, Px. cbn [obind part]. rewrite <- N0. reflexivity.
            * rewrite part_app, Py. cbn [obind part]. rewrite <- M0. reflexivity.
            * symmetry in N0. apply nth_error_In in N0. apply depth_in in N0. lia.
          + intro j. specialize (Nl (S j)). cbn [nth_error] in Nl. rewrite Nl. f_equal. lia.
          + intro j. specialize (Nm (S j)). cbn [nth_error] in Nm. rewrite Nm. f_equal. lia. }
      apply (G 0%nat l m); intro j; reflexivity.
    - destruct y as [| | | | |m]; try (cbn; split; [discriminate|intro H; inversion H]; fail). cbn [load deepEqual].
      assert (Ho : h (false, q) = map (fun '(k, x) => (k, load false (q ++ [PKey k]) x)) l) by (specialize (Hq []); rewrite app_nil_r in Hq; rewrite Hq; unfold heapOf; rewrite Px; reflexivity).
      assert (Ho' : h (false, q') = map (fun '(k, x) => (k, load false (q' ++ [PKey k]) x)) m) by (specialize (Hq' []); rewrite app_nil_r in Hq'; rewrite Hq'; unfold heapOf; rewrite Py; reflexivity).
      rewrite Ho, Ho'. rewrite (maps_equal (deepEqual n h)) by (rewrite map_fst_map; apply wf_nodup; (exact (part_wf _ _ _ WA Px) || exact (part_wf _ _ _ WA Py))). split.
      + intros [K H]. constructor.
        * intro k. specialize (K k). rewrite !get_map in K. destruct (get k l), (get k m); cbn in K; split; intro; try discriminate; try reflexivity; exfalso; destruct K as [K1 K2]; (specialize (K1 eq_refl) || specialize (K2 eq_refl)); discriminate.
        * intros k x y Gx Gy. specialize (H k (load false (q ++ [PKey k]) x) (load false (q' ++ [PKey k]) y)). rewrite !get_map, Gx, Gy in H. specialize (H eq_refl eq_refl).
          apply (IH (q ++ [PKey k]) (q' ++ [PKey k])) in H; auto.
          -- intro r. rewrite <- app_assoc. apply Hq.
          -- intro r. rewrite <- app_assoc. apply Hq'.
          -- rewrite part_app, Px. cbn [obind part]. rewrite Gx. reflexivity.
          -- rewrite part_app, Py. cbn [obind part]. rewrite Gy. reflexivity.
          -- apply depth_get in Gx. lia.
      + intro H. inversion H as [| | | | |? ? K Sm]; subst. split.
        * intro k. specialize (K k). rewrite !get_map. destruct (get k l), (get k m); cbn; split; intro; try discriminate; try reflexivity; exfalso; destruct K as [K1 K2]; (specialize (K1 eq_refl) || specialize (K2 eq_refl)); discriminate.
        * intros k v w. rewrite !get_map. destruct (get k l) as [x|] eqn:Gx; [|discriminate]. destruct (get k m) as [y|] eqn:Gy; [|discriminate]. intros [= <-] [= <-].
          apply (IH (q ++ [PKey k]) (q' ++ [PKey k])).
          -- intro r. rewrite <- app_assoc. apply Hq.
          -- intro r. rewrite <- app_assoc. apply Hq'.
          -- rewrite part_app, Px. cbn [obind part]. rewrite Gx. reflexivity.
          -- rewrite part_app, Py. cbn [obind part]. rewrite Gy. reflexivity.
          -- apply depth_get in Gx. lia.
          -- eauto.
  Qed.

  Lemma variable_dec : forall x, is_variable x \/ ~ is_variable x.
  Proof.
    intros [| | |s| |]; try (right; intros (t & H & _); discriminate H). destruct (isVar s) eqn:I; [left; exists s; split; [reflexivity|now apply isVar_iff]|right; intros (t & H & B)]. injection H as <-. apply isVar_iff in B. congruence.
  Qed.
  Lemma any_braces : braces ANY.
  Proof. exists (bs "ANYTHING"). reflexivity. Qed.

  (** Comparing the two documents in the end *)
  Lemma deep_final : forall h n p e a, (forall side q, ~ both q -> h (side, q) = orig (side, q)) -> (forall side r, okAt h side (p ++ r)) -> nonull p ->
    part E p = Some e -> part A p = Some a -> (depth e + depth a <= n)%nat -> (deepEqual n h (load true p e) (load false p a) = true <-> fits e a).
  Proof.
    intros h n. induction n as [|n IH]; intros p e a Nb Ok Nn Pe Pa D; [pose proof (depth_pos e); lia|].
    assert (Sub : forall pl, (forall side r, okAt h side ((p ++ [pl]) ++ r)) /\ nonull (p ++ [pl])).
    { intro pl. split; [intros side r; rewrite <- app_assoc; apply Ok|]. intro r. rewrite <- app_assoc. apply Nn. }
    destruct e as [|b|z|s|l|l].
    - specialize (Nn []). rewrite app_nil_r in Nn. rewrite (Nn Pe) in Pa. discriminate.
    - destruct a as [|b'| | | |]; cbn; try (split; [discriminate|intro H; inversion H]). split; [intro H; apply eqb_prop in H; subst; constructor|intro H; inversion H; apply eqb_reflx].
    - destruct a as [| |z'| | |]; cbn; try (split; [discriminate|intro H; inversion H]). split; [intro H; apply Z.eqb_eq in H; subst; constructor|intro H; inversion H; apply Z.eqb_refl].
    - destruct a as [| | |s'| |]; cbn; try (split; [discriminate|intro H; inversion H]). destruct (list_eq_dec Z.eq_dec s s') as [->|N].
      + split; [constructor|reflexivity].
      + split; [discriminate|intro H; inversion H; congruence].
    - destruct a as [| | | |m|]; try (cbn; split; [discriminate|intro H; inversion H]; fail). rewrite !load_slice. cbn [deepEqual].
      transitivity (Forall2 fits l m); [|split; [constructor; auto|intro H; inversion H; auto]].
      assert (G : forall i l' m', (forall j, nth_error l' j = nth_error l (i + j)) -> (forall j, nth_error m' j = nth_error m (i + j)) ->
        ((fix both l m := match l, m with [], [] => true | a :: l, b :: m => deepEqual n h a b && both l m | _, _ => false end) (loads true p i l') (loads false p i m') = true <-> Forall2 fits l' m')).
      { intros i l'. revert i. induction l' as [|a l' IHl]; intros i [|c m'] Nl Nm; cbn [loads].
        - split; constructor.
        - split; [discriminate|intro H; inversion H].
        - split; [discriminate|intro H; inversion H].
        - rewrite andb_true_iff. rewrite (IHl (S i)).
          + pose proof (Nl 0%nat) as N0. pose proof (Nm 0%nat) as M0. rewrite Nat.add_0_r in N0, M0. cbn [nth_error] in N0, M0. destruct (Sub (PIndex i)) as [Ok' Nn'].
            rewrite (IH (p ++ [PIndex i]) a c Nb Ok' Nn').
            * split; [intros [P Q]; constructor; auto|intro H; inversion H; auto].
            * rewrite part_app, Pe. cbn [obind part]. rewrite <- N0. reflexivity.
            * rewrite part_app, Pa. cbn [obind part]. rewrite <- M0. reflexivity.
            * symmetry in N0, M0. apply nth_error_In in N0, M0. apply depth_in in N0, M0. lia.
          + intro j. specialize (Nl (S j)). cbn [nth_error] in Nl. rewrite Nl. f_equal. lia.
          + intro j. specialize (Nm (S j)). cbn [nth_error] in Nm. rewrite Nm. f_equal. lia. }
      apply (G 0%nat l m); intro j; reflexivity.
    - destruct a as [| | | | |m]; try (cbn; split; [discriminate|intro H; inversion H]; fail). cbn [load deepEqual].
      destruct (Ok true []) as [N1 G1]. destruct (Ok false []) as [N2 G2]. rewrite app_nil_r in N1, G1, N2, G2.
      rewrite (maps_equal (deepEqual n h)) by assumption. unfold fget in G1, G2. rewrite Pe, Pa in G1, G2.
      assert (Pk : forall k x y, get k l = Some x -> get k m = Some y -> part E (p ++ [PKey k]) = Some x /\ part A (p ++ [PKey k]) = Some y /\ (depth x + depth y <= n)%nat).
      { intros k x y Gx Gy. rewrite !part_app, Pe, Pa. cbn [obind part]. rewrite Gx, Gy. apply depth_get in Gx, Gy. repeat split; auto. lia. }
      split.
      + intros [K H]. constructor.
        * intros k NA. specialize (K k). rewrite G1, G2 in K. destruct (get k l) as [x|] eqn:Gx.
          -- assert (Some x <> None) by discriminate. split; [discriminate|]. intro Gy. rewrite Gy in K. cbn [option_map] in K.
             destruct x as [| | |s| |]; try (destruct K as [_ K]; specialize (K eq_refl); discriminate K).
             destruct (list_eq_dec Z.eq_dec s ANY) as [->|]; [destruct (NA eq_refl)|]. destruct K as [_ K]; specialize (K eq_refl); discriminate K.
          -- destruct (get k m); [|split; reflexivity]. destruct K as [K _]. specialize (K eq_refl). discriminate K.
        * intros k x y Gx NV Gy. destruct (Pk _ _ _ Gx Gy) as (P1 & P2 & D'). destruct (Sub (PKey k)) as [Ok' Nn']. apply (IH (p ++ [PKey k]) x y Nb Ok' Nn' P1 P2 D').
          apply (H k); [rewrite G1, Gx|rewrite G2, Gx, Gy].
          -- destruct x as [| | |s| |]; try reflexivity. destruct (list_eq_dec Z.eq_dec s ANY) as [->|]; [destruct NV; exists ANY; split; [reflexivity|apply any_braces]|].
             rewrite Gy. destruct (isVar s) eqn:V; [destruct NV; exists s; split; [reflexivity|now apply isVar_iff]|reflexivity].
          -- destruct x as [| | |s| |]; try reflexivity. destruct (list_eq_dec Z.eq_dec s ANY) as [->|]; [destruct NV; exists ANY; split; [reflexivity|apply any_braces]|]. reflexivity.
      + intro H. inversion H as [| | | |? ? K Hm]; subst. split.
        * intro k. rewrite G1, G2. destruct (get k l) as [x|] eqn:Gx.
          -- assert (R : x = DStr ANY \/ x <> DStr ANY).
             { destruct x as [| | |s| |]; try (right; discriminate). destruct (list_eq_dec Z.eq_dec s ANY) as [->|N]; [left; reflexivity|right; intro Q; injection Q as Q; contradiction]. }
             destruct R as [->|R]; [destruct (list_eq_dec Z.eq_dec ANY ANY) as [_|N]; [split; discriminate|destruct N; reflexivity]|].
             destruct (get k m) as [y|] eqn:Gy.
             ++ destruct x as [| | |s| |]; cbn [option_map]; try (split; discriminate). destruct (list_eq_dec Z.eq_dec s ANY); [split; discriminate|]. destruct (isVar s); split; discriminate.
             ++ exfalso. assert (NA : get k l <> Some (DStr ANY)) by (rewrite Gx; intro Q; injection Q as Q; contradiction). apply (proj2 (K k NA)) in Gy. congruence.
          -- assert (NA : get k l <> Some (DStr ANY)) by (rewrite Gx; discriminate). apply (proj1 (K k NA)) in Gx. rewrite Gx. split; reflexivity.
        * intros k v w. rewrite G1, G2. destruct (get k l) as [x|] eqn:Gx; [|discriminate].
          assert (Other : ~ is_variable x -> Some (load true (p ++ [PKey k]) x) = Some v -> option_map (load false (p ++ [PKey k])) (get k m) = Some w -> deepEqual n h v w = true).
          { intros NV. destruct (get k m) as [y|] eqn:Gy; [|discriminate]. intros [= <-] [= <-]. destruct (Pk _ _ _ Gx Gy) as (P1 & P2 & D'). destruct (Sub (PKey k)) as [Ok' Nn'].
            apply (IH (p ++ [PKey k]) x y Nb Ok' Nn' P1 P2 D'). eapply Hm; eauto. }
          destruct x as [| | |s| |]; try (apply Other; intros (t & Q & _); discriminate Q).
          destruct (list_eq_dec Z.eq_dec s ANY) as [->|NA].
          -- intros [= <-] [= <-]. destruct n; [cbn [depth] in D; pose proof (depth_get _ _ _ Gx); cbn [depth] in *; lia|]. reflexivity.
          -- destruct (get k m) as [y|] eqn:Gy; [|discriminate]. cbn [option_map]. destruct (isVar s) eqn:V.
             ++ intros [= <-] [= <-]. destruct (Pk _ _ _ Gx Gy) as (P1 & P2 & D').
                assert (Un : forall r, h (false, (p ++ [PKey k]) ++ r) = orig (false, (p ++ [PKey k]) ++ r)) by (intro r; apply Nb; eapply under_string; eauto).
                apply (deep_actual h n _ _ y y Un Un P2 P2); [lia|apply same_refl].
             ++ apply Other. intros (t & Q & B). injection Q as <-. apply isVar_iff in B. congruence.
  Qed.

  Definition post (p : list place) (e a : doc) (s : state) (o : outcome) : Prop :=
    match o with
    | Done s' => Inv s' /\ (forall side q, (forall r, q <> p ++ r) -> hp s' (side, q) = hp s (side, q)) /\ (forall side r, okAt (hp s') side (p ++ r)) /\ nonull p /\
        (forall env, V s' env <-> V s env /\ cons env p)
    | Fatal => forall env, V s env -> ~ cons env p
    | Panicked => ~ fits e a
    | Unfinished => False
    end.

  Variable order : nat -> list bytes -> list bytes.
  Variable size : nat.
  Hypothesis PO : forall i l, Permutation (order i l) l.
  Hypothesis SZ : (depth A <= size)%nat.

  Lemma bind_ok : forall fuel s name q y, (0 < fuel)%nat -> Inv s -> part A q = Some y -> part E q = Some (DStr name) ->
    match bind order size fuel s name (load false q y) with
    | Done s' => hp s' = hp s /\ Inv s' /\ forall env, V s' env <-> V s env /\ same (env name) y
    | Fatal => forall env, V s env -> ~ same (env name) y
    | _ => False
    end.
  Proof.
    intros fuel s name q y F [I1 I2] PA' PE'. destruct fuel as [|fuel]; [lia|]. cbn [bind].
    assert (Un : forall q r str, part E q = Some (DStr str) -> hp s (false, q ++ r) = orig (false, q ++ r)) by (intros; apply I1; eapply under_string; eauto).
    assert (Cmp : forall v y0, denotes v y0 -> (deepEqual size (hp s) v (load false q y) = true <-> same y0 y)).
    { intros v y0 (q0 & str & -> & P1 & P2). apply deep_actual; eauto. apply part_depth in P1. lia. }
    assert (Dn : denotes (load false q y) y) by (exists q, name; auto).
    destruct (get name (vars s)) as [v|] eqn:G.
    - destruct (I2 _ _ G) as [-> (y0 & D0)]. destruct (deepEqual size (hp s) (value v) (load false q y)) eqn:Eq.
      + split; [reflexivity|]. split; [split; assumption|]. intro env. split; [|tauto]. intro Hv. split; [exact Hv|]. destruct (Hv _ _ G) as (y1 & D1 & S1). apply (Cmp _ _ D1) in Eq. eapply same_trans; eauto.
      + intros env Hv Sm. destruct (Hv _ _ G) as (y1 & D1 & S1). assert (same y1 y) by (eapply same_trans; [apply same_sym; eauto|eauto]). apply (Cmp _ _ D1) in H. congruence.
    - split; [reflexivity|]. split.
      + split; [exact I1|]. intros n v. cbn [setVar vars]. rewrite get_put. destruct (list_eq_dec Z.eq_dec name n) as [->|N]; [|apply I2]. intros [= <-]. split; [reflexivity|]. exists y. exact Dn.
      + intro env. unfold V. cbn [setVar vars]. split.
        * intro Hv. split.
          -- intros n v Gn. apply Hv. rewrite get_put. destruct (list_eq_dec Z.eq_dec name n) as [->|N]; [congruence|exact Gn].
          -- destruct (Hv name (mkVariable (load false q y) [])) as (y1 & D1 & S1); [rewrite get_put; destruct (list_eq_dec Z.eq_dec name name); congruence|]. cbn [value] in D1.
             apply (same_trans _ _ _ S1). apply (Cmp _ _ D1). apply (Cmp _ _ Dn). apply same_refl.
        * intros [Hv Sm] n v. rewrite get_put. destruct (list_eq_dec Z.eq_dec name n) as [->|N]; [intros [= <-]; exists y; auto|apply Hv].
  Qed.

  Lemma noext : forall (p : list place) pl q, (forall r, q <> p ++ r) -> forall r, q <> (p ++ [pl]) ++ r.
  Proof. intros p pl q H r. rewrite <- app_assoc. apply H. Qed.
  Lemma other_child : forall (p : list place) x y r r', x <> y -> p ++ x :: r <> (p ++ [y]) ++ r'.
  Proof. intros p x y r r' N H. rewrite <- app_assoc in H. apply app_inv_head in H. cbn in H. congruence. Qed.
  Lemma self_child : forall (p : list place) y r', p <> (p ++ [y]) ++ r'.
  Proof. intros p y r' H. apply (f_equal (@List.length place)) in H. rewrite !app_length in H. cbn in H. lia. Qed.

  Lemma run_ok : forall fuel p e a s, part E p = Some e -> part A p = Some a -> (depth e <= fuel)%nat -> Inv s -> (forall side r, hp s (side, p ++ r) = orig (side, p ++ r)) ->
    post p e a s (substituteVars order size fuel s (load true p e) (load false p a)).
  Proof.
    induction fuel as [|fuel IH]; intros p e a s Pe Pa D I O; [pose proof (depth_pos e); lia|].
    (* nothing below p is a pair of maps *)
    assert (Leaf : (forall r, ~ both (p ++ r)) -> nonull p -> (forall env, cons env p) -> post p e a s (Done s)).
    { intros Nb Nn C. split; [exact I|]. split; [reflexivity|]. split; [intros side r; now apply notboth_ok|]. split; [exact Nn|]. intro env. split; [auto|tauto]. }
    assert (Mis : e <> DNull -> ~ (is_map e /\ is_map a) -> (forall l m, ~ (e = DSlice l /\ a = DSlice m)) -> post p e a s (Done s)).
    { intros N0 N1 N2. assert (Ex : forall r, r = [] \/ part E (p ++ r) = None \/ part A (p ++ r) = None).
      { intros [|[k|i] r]; [left; reflexivity| |]; right; rewrite !part_app, Pe, Pa; cbn [obind part].
        - destruct e as [| | | | |l]; auto. destruct a as [| | | | |m]; auto. destruct N1. split; exact Logic.I.
        - destruct e as [| | | |l|]; auto. destruct a as [| | | |m|]; auto. destruct (N2 l m). auto. }
      apply Leaf.
      - intros r (l & m & P1 & P2). destruct (Ex r) as [->|[X|X]]; [|congruence|congruence]. rewrite app_nil_r in P1, P2. rewrite Pe in P1. rewrite Pa in P2. injection P1 as ->. injection P2 as ->. destruct N1. split; exact Logic.I.
      - intros r P1. destruct (Ex r) as [->|[X|X]]; [rewrite app_nil_r in P1; rewrite Pe in P1; injection P1 as ->; contradiction|congruence|exact X].
      - intros env r k name y P1 _ _ P2. destruct (Ex (r ++ [PKey k])) as [X|[X|X]]; [destruct r; discriminate X|congruence|congruence]. }
    destruct e as [|b|z|str|l|l].
    - intro H. inversion H.
    - apply Mis; [discriminate|intros [[] _]|intros ? ? [Q _]; discriminate Q].
    - apply Mis; [discriminate|intros [[] _]|intros ? ? [Q _]; discriminate Q].
    - apply Mis; [discriminate|intros [[] _]|intros ? ? [Q _]; discriminate Q].
    - destruct a as [|b|z|str|m|m]; try (apply Mis; [discriminate|intros [[] _]|intros ? ? [_ Q]; discriminate Q]; fail). clear Leaf Mis.
      assert (Ck : forall env, cons env p <-> forall j, (0 <= j)%nat -> cons env (p ++ [PIndex j])).
      { intro env. split.
        - intros C j _ r k. rewrite <- app_assoc. exact (C (PIndex j :: r) k).
        - intros C r k. destruct r as [|[k'|j] r].
          + intros name y P. rewrite part_app, Pe in P. discriminate P.
          + intros name y P. rewrite part_app, Pe in P. discriminate P.
          + specialize (C j (Nat.le_0_l j) r k). rewrite <- app_assoc in C. exact C. }
      rewrite !load_slice. cbn [substituteVars].
      set (loop := fix loop (l m : list hv) (s : state) : outcome := match l with [] => _ | _ => _ end).
      assert (L : forall l' i m' s', (forall j, nth_error l' j = nth_error l (i + j)) -> (forall j, nth_error m' j = nth_error m (i + j)) -> Inv s' ->
        (forall side j r, (i <= j)%nat -> hp s' (side, p ++ PIndex j :: r) = orig (side, p ++ PIndex j :: r)) ->
        (forall side j r, (j < i)%nat -> okAt (hp s') side (p ++ PIndex j :: r)) -> (forall j r, (j < i)%nat -> part E (p ++ PIndex j :: r) = Some DNull -> part A (p ++ PIndex j :: r) = None) ->
        match loop (loads true p i l') (loads false p i m') s' with
        | Done s'' => Inv s'' /\ (forall side q, (forall r, q <> p ++ r) -> hp s'' (side, q) = hp s' (side, q)) /\ (forall side j r, okAt (hp s'') side (p ++ PIndex j :: r)) /\
            (forall j r, part E (p ++ PIndex j :: r) = Some DNull -> part A (p ++ PIndex j :: r) = None) /\
            forall env, V s'' env <-> V s' env /\ forall j, (i <= j)%nat -> cons env (p ++ [PIndex j])
        | Fatal => forall env, V s' env -> ~ forall j, (i <= j)%nat -> cons env (p ++ [PIndex j])
        | Panicked => ~ Forall2 fits l' m'
        | Unfinished => False
        end).
      { induction l' as [|x l' IHl]; intros i m' s' Nl Nm I' O' K' Nn'.
        { assert (No : forall j r, (i <= j)%nat -> part E (p ++ PIndex j :: r) = None).
          { intros j r J. rewrite part_app, Pe. cbn [obind part]. replace j with (i + (j - i))%nat by lia. rewrite <- Nl. destruct (j - i)%nat; reflexivity. }
          change (loop (loads true p i []) (loads false p i m') s') with (Done s'). split; [exact I'|]. split; [reflexivity|]. split; [|split].
          - intros side j r. destruct (Nat.lt_ge_cases j i) as [J|J]; [now apply K'|]. apply notboth_ok; [exact I'|]. intros (l1 & m1 & P & _). rewrite No in P by exact J. discriminate.
          - intros j r P. destruct (Nat.lt_ge_cases j i) as [J|J]; [now apply Nn'|]. rewrite No in P by exact J. discriminate.
          - intro env. split; [|tauto]. intro Hv. split; [exact Hv|]. intros j J r k name y P. exfalso. rewrite <- app_assoc in P. cbn [app] in P. rewrite No in P by exact J. discriminate. }
        destruct m' as [|y m']; [intro H; inversion H|]. cbn [loads].
        change (loop (load true (p ++ [PIndex i]) x :: loads true p (S i) l') (load false (p ++ [PIndex i]) y :: loads false p (S i) m') s') with
          (match substituteVars order size fuel s' (load true (p ++ [PIndex i]) x) (load false (p ++ [PIndex i]) y) with Done s => loop (loads true p (S i) l') (loads false p (S i) m') s | o => o end).
        pose proof (Nl 0%nat) as N0. pose proof (Nm 0%nat) as M0. rewrite Nat.add_0_r in N0, M0. cbn [nth_error] in N0, M0.
        assert (Px : part E (p ++ [PIndex i]) = Some x) by (rewrite part_app, Pe; cbn [obind part]; rewrite <- N0; reflexivity).
        assert (Py : part A (p ++ [PIndex i]) = Some y) by (rewrite part_app, Pa; cbn [obind part]; rewrite <- M0; reflexivity).
        assert (Dx : (depth x <= fuel)%nat) by (symmetry in N0; apply nth_error_In, depth_in in N0; lia).
        specialize (IH (p ++ [PIndex i]) x y s' Px Py Dx I'). assert (Oi : forall side r, hp s' (side, (p ++ [PIndex i]) ++ r) = orig (side, (p ++ [PIndex i]) ++ r)) by (intros side r; rewrite <- app_assoc; apply O'; lia).
        specialize (IH Oi). destruct (substituteVars order size fuel s' (load true (p ++ [PIndex i]) x) (load false (p ++ [PIndex i]) y)) as [s1| | |]; cbn [post] in IH.
        - destruct IH as (I1 & F1 & K1 & Nn1 & V1).
          specialize (IHl (S i) m' s1). assert (Q1 : forall j, nth_error l' j = nth_error l (S i + j)) by (intro j; specialize (Nl (S j)); cbn [nth_error] in Nl; rewrite Nl; f_equal; lia).
          assert (Q2 : forall j, nth_error m' j = nth_error m (S i + j)) by (intro j; specialize (Nm (S j)); cbn [nth_error] in Nm; rewrite Nm; f_equal; lia).
          assert (Q3 : forall side j r, (S i <= j)%nat -> hp s1 (side, p ++ PIndex j :: r) = orig (side, p ++ PIndex j :: r)).
          { intros side j r J. rewrite F1; [apply O'; lia|]. intro r'. apply other_child. intro Q. injection Q as Q. lia. }
          assert (Q4 : forall side j r, (j < S i)%nat -> okAt (hp s1) side (p ++ PIndex j :: r)).
          { intros side j r J. destruct (Nat.eq_dec j i) as [->|N]; [specialize (K1 side r); rewrite <- app_assoc in K1; exact K1|]. assert (J' : (j < i)%nat) by lia. specialize (K' side j r J'). unfold okAt in *.
            rewrite F1; [exact K'|]. intro r'. apply other_child. intro Q. injection Q as Q. lia. }
          assert (Q5 : forall j r, (j < S i)%nat -> part E (p ++ PIndex j :: r) = Some DNull -> part A (p ++ PIndex j :: r) = None).
          { intros j r J. destruct (Nat.eq_dec j i) as [->|N]; [specialize (Nn1 r); rewrite <- app_assoc in Nn1; exact Nn1|apply Nn'; lia]. }
          specialize (IHl Q1 Q2 I1 Q3 Q4 Q5).
          assert (Sp : forall env, (forall j, (i <= j)%nat -> cons env (p ++ [PIndex j])) <-> cons env (p ++ [PIndex i]) /\ forall j, (S i <= j)%nat -> cons env (p ++ [PIndex j])).
          { intro env. split; [intro H; split; [apply H; lia|intros j J; apply H; lia]|]. intros [H1 H2] j J. destruct (Nat.eq_dec j i) as [->|N]; [exact H1|apply H2; lia]. }
          destruct (loop (loads true p (S i) l') (loads false p (S i) m') s1) as [s2| | |].
          + destruct IHl as (I2 & F2 & K2 & Nn2 & V2). split; [exact I2|]. split; [intros side q Q; rewrite F2 by exact Q; apply F1; now apply noext|]. split; [exact K2|]. split; [exact Nn2|].
            intro env. rewrite V2, V1, Sp. tauto.
          + intro H. inversion H; subst. contradiction.
          + intros env Hv C. apply Sp in C as [C1 C2]. apply (IHl env); [apply V1; auto|exact C2].
          + exact IHl.
        - intro H. inversion H; subst. contradiction.
        - intros env Hv C. apply (IH env Hv). apply C. lia.
        - exact IH. }
      specialize (L l 0%nat m s (fun j => eq_refl) (fun j => eq_refl) I (fun side j r _ => O side (PIndex j :: r)) (fun side j r J => False_ind _ (Nat.nlt_0_r _ J)) (fun j r J => False_ind _ (Nat.nlt_0_r _ J))).
      destruct (loop (loads true p 0 l) (loads false p 0 m) s) as [s2| | |]; cbn [post].
      + destruct L as (I2 & F2 & K2 & Nn2 & V2). split; [exact I2|]. split; [exact F2|]. split; [|split].
        * intros side [|[k|j] r]; [| |apply K2].
          -- apply notboth_ok; [exact I2|]. rewrite app_nil_r. intros (l1 & m1 & P & _). congruence.
          -- apply notboth_ok; [exact I2|]. intros (l1 & m1 & P & _). rewrite part_app, Pe in P. discriminate.
        * intros [|[k|j] r] P; [rewrite app_nil_r, Pe in P; discriminate|rewrite part_app, Pe in P; discriminate|now apply Nn2].
        * intro env. rewrite V2, <- Ck. tauto.
      + intro H. inversion H; subst. contradiction.
      + intros env Hv C. apply (L env Hv). apply Ck. exact C.
      + exact L.
    - destruct a as [|b|z|str|m|m]; try (apply Mis; [discriminate|intros [_ []]|intros ? ? [Q _]; discriminate Q]; fail). clear Leaf Mis.
      assert (Bp : both p) by (exists l, m; auto).
      assert (Ck : forall env, cons env p <-> forall k, here env (p ++ [PKey k]) /\ cons env (p ++ [PKey k])).
      { intro env. split.
        - intros C k. split; [exact (C [] k)|]. intros r k'. rewrite <- app_assoc. exact (C (PKey k :: r) k').
        - intros C r k. destruct r as [|[k'|j] r].
          + apply C.
          + destruct (C k') as [_ C']. specialize (C' r k). rewrite <- app_assoc in C'. exact C'.
          + intros name y P. rewrite part_app, Pe in P. discriminate P. }
      assert (NV : forall k x, get k l = Some x -> isVar k = false).
      { intros k x G. destruct (isVar k) eqn:Q; [|reflexivity]. apply isVar_iff in Q. pose proof (part_plain _ _ _ PE Pe) as PL. inversion PL as [? H| |? N _]; subst; [|destruct (N l eq_refl)]. destruct (H _ _ G). contradiction. }
      assert (PEk : forall k, part E (p ++ [PKey k]) = get k l) by (intro k; rewrite part_app, Pe; cbn [obind part]; destruct (get k l); reflexivity).
      assert (PAk : forall k, part A (p ++ [PKey k]) = get k m) by (intro k; rewrite part_app, Pa; cbn [obind part]; destruct (get k m); reflexivity).
      assert (OE : forall k, get k (orig (true, p)) = option_map (load true (p ++ [PKey k])) (get k l)) by (intro k; unfold heapOf; rewrite Pe; apply (get_map (fun k x => load true (p ++ [PKey k]) x))).
      assert (OA : forall k, get k (orig (false, p)) = option_map (load false (p ++ [PKey k])) (get k m)) by (intro k; unfold heapOf; rewrite Pa; apply (get_map (fun k x => load false (p ++ [PKey k]) x))).
      cbn [load substituteVars].
      set (loop := fix loop (keys : list bytes) (s : state) : outcome := match keys with [] => _ | _ => _ end).
      set (pre := fun keys s' => Inv s' /\ (forall side k r, In k keys -> hp s' (side, p ++ PKey k :: r) = orig (side, p ++ PKey k :: r)) /\
        (forall side, NoDup (map fst (hp s' (side, p)))) /\ (forall side k, get k (hp s' (side, p)) = if in_dec (list_eq_dec Z.eq_dec) k keys then get k (orig (side, p)) else fget side p k) /\
        (forall side k r, ~ In k keys -> okAt (hp s') side (p ++ PKey k :: r)) /\ (forall k r, ~ In k keys -> part E (p ++ PKey k :: r) = Some DNull -> part A (p ++ PKey k :: r) = None)).
      set (mpost := fun keys s' o => match o with
        | Done s'' => pre [] s'' /\ (forall side q, (forall r, q <> p ++ r) -> hp s'' (side, q) = hp s' (side, q)) /\
            forall env, V s'' env <-> V s' env /\ forall k, In k keys -> here env (p ++ [PKey k]) /\ cons env (p ++ [PKey k])
        | Fatal => forall env, V s' env -> ~ forall k, In k keys -> here env (p ++ [PKey k]) /\ cons env (p ++ [PKey k])
        | Panicked => ~ fits (DMap l) (DMap m)
        | Unfinished => False
        end).
      assert (L : forall keys s', NoDup keys -> incl keys (map fst l) -> pre keys s' -> mpost keys s' (loop keys s')).
      { induction keys as [|key keys IHk]; intros s' N Ic Pr.
        { change (loop [] s') with (Done s'). split; [exact Pr|]. split; [reflexivity|]. intro env. split; [intro Hv; split; [exact Hv|intros k []]|tauto]. }
        inversion N as [|? ? Nk Nr]; subst. assert (Icr : incl keys (map fst l)) by (intros k K; apply Ic; right; exact K).
        destruct (get_in_key key l (Ic key (or_introl eq_refl))) as (x & G).
        destruct Pr as (I' & O' & ND & GG & K' & Nn').
        assert (GE : get key (hp s' (true, p)) = Some (load true (p ++ [PKey key]) x)).
        { rewrite GG. destruct (in_dec (list_eq_dec Z.eq_dec) key (key :: keys)) as [_|Q]; [rewrite OE, G; reflexivity|destruct Q; left; reflexivity]. }
        assert (GA : get key (hp s' (false, p)) = option_map (load false (p ++ [PKey key])) (get key m)).
        { rewrite GG. destruct (in_dec (list_eq_dec Z.eq_dec) key (key :: keys)) as [_|Q]; [apply OA|destruct Q; left; reflexivity]. }
        assert (Dx : (depth x <= fuel)%nat) by (apply depth_get in G; lia).
        assert (F0 : (0 < fuel)%nat) by (pose proof (depth_pos x); lia).
        assert (Upd : forall s1, Inv s1 -> (forall side q, q <> p -> (forall r, q <> p ++ PKey key :: r) -> hp s1 (side, q) = hp s' (side, q)) -> (forall side, NoDup (map fst (hp s1 (side, p)))) ->
          (forall side k, k <> key -> get k (hp s1 (side, p)) = get k (hp s' (side, p))) -> (forall side, get key (hp s1 (side, p)) = fget side p key) ->
          (forall side r, okAt (hp s1) side (p ++ PKey key :: r)) -> (forall r, part E (p ++ PKey key :: r) = Some DNull -> part A (p ++ PKey key :: r) = None) -> pre keys s1).
        { intros s1 I1 F1 ND1 G1 G2 K1 Nn1. assert (Np : forall pl r, p ++ pl :: r <> p) by (intros pl r Q; apply (f_equal (@List.length place)) in Q; rewrite app_length in Q; cbn in Q; lia).
          assert (Ot : forall side k r, k <> key -> hp s1 (side, p ++ PKey k :: r) = hp s' (side, p ++ PKey k :: r)).
          { intros side k r Q. apply F1; [apply Np|]. intros r' Q'. apply app_inv_head in Q'. congruence. }
          split; [exact I1|]. split; [|split; [exact ND1|split; [|split]]].
          - intros side k r K. rewrite Ot by (intros ->; contradiction). apply O'. right. exact K.
          - intros side k. destruct (list_eq_dec Z.eq_dec k key) as [->|Q].
            + destruct (in_dec (list_eq_dec Z.eq_dec) key keys) as [K|_]; [contradiction|apply G2].
            + rewrite (G1 side k Q), GG. destruct (in_dec (list_eq_dec Z.eq_dec) k (key :: keys)) as [K|K], (in_dec (list_eq_dec Z.eq_dec) k keys) as [K2|K2]; try reflexivity.
              * destruct K as [K|K]; [congruence|contradiction].
              * destruct K. right. exact K2.
          - intros side k r K. destruct (list_eq_dec Z.eq_dec k key) as [->|Q]; [apply K1|]. assert (K2 : ~ In k (key :: keys)) by (intros [Z|Z]; [congruence|contradiction]). specialize (K' side k r K2).
            unfold okAt in *. rewrite Ot by exact Q. exact K'.
          - intros k r K. destruct (list_eq_dec Z.eq_dec k key) as [->|Q]; [apply Nn1|]. apply Nn'. intros [Z|Z]; [congruence|contradiction]. }
        assert (Go : forall s1, pre keys s1 -> (forall side q, (forall r, q <> p ++ r) -> hp s1 (side, q) = hp s' (side, q)) ->
          (forall env, V s1 env <-> V s' env /\ (here env (p ++ [PKey key]) /\ cons env (p ++ [PKey key]))) -> mpost (key :: keys) s' (loop keys s1)).
        { intros s1 P1 F1 V1. specialize (IHk s1 Nr Icr P1).
          assert (Sp : forall env, (forall k, In k (key :: keys) -> here env (p ++ [PKey k]) /\ cons env (p ++ [PKey k])) <->
            (here env (p ++ [PKey key]) /\ cons env (p ++ [PKey key])) /\ forall k, In k keys -> here env (p ++ [PKey k]) /\ cons env (p ++ [PKey k])).
          { intro env. split; [intro H; split; [apply H; left; reflexivity|intros k K; apply H; right; exact K]|]. intros [H1 H2] k [<-|K]; auto. }
          destruct (loop keys s1) as [s2| | |]; unfold mpost in *.
          - destruct IHk as (P2 & F2 & V2). split; [exact P2|]. split; [intros side q Q; rewrite F2 by exact Q; apply F1; exact Q|]. intro env. rewrite V2, V1, Sp. tauto.
          - exact IHk.
          - intros env Hv C. apply Sp in C as [C1 C2]. apply (IHk env); [apply V1; auto|exact C2].
          - exact IHk. }
        assert (Keep : (forall r, ~ both (p ++ PKey key :: r)) -> (forall r, part E (p ++ PKey key :: r) = Some DNull -> part A (p ++ PKey key :: r) = None) ->
          fget true p key = Some (load true (p ++ [PKey key]) x) -> fget false p key = option_map (load false (p ++ [PKey key])) (get key m) ->
          (forall env, here env (p ++ [PKey key]) /\ cons env (p ++ [PKey key])) -> mpost (key :: keys) s' (loop keys s')).
        { intros Nb Nn F1 F2 C. apply Go; [|reflexivity|intro env; split; [intro Hv; split; [exact Hv|apply C]|tauto]].
          apply Upd; auto. - intros [|]; congruence. - intros side r. apply notboth_ok; auto. }
        change (loop (key :: keys) s') with
          (let continue o := match o with Done s => loop keys s | o => o end in match (if isVar key then sub order size fuel s' key (mkClosure (true, p) (false, p) key) else Done s') with
               | Done s =>
                 match get key (hp s (true, p)) with
                 | None => loop keys s
                 | Some HNull => Panicked
                 | Some (HStr varName) =>
                   if list_eq_dec Z.eq_dec varName (bs "{ANYTHING}") then loop keys (setMap s (false, p) (put key (HStr (bs "{ANYTHING}")) (hp s (false, p))))
                   else
                     match get key (hp s (false, p)) with
                     | None => loop keys s
                     | Some actualElem =>
                       if isVar varName then continue (bind order size fuel (setMap s (true, p) (put key actualElem (hp s (true, p)))) varName actualElem)
                       else loop keys s
                     end
                 | Some expectedElem =>
                   match get key (hp s (false, p)) with
                   | None => loop keys s
                   | Some actualElem => continue (substituteVars order size fuel s expectedElem actualElem)
                   end
                 end
               | o => o
               end).
        cbv zeta. rewrite (NV _ _ G), GE.
        assert (FT : fget true p key = match x with DStr s => if list_eq_dec Z.eq_dec s ANY then Some (HStr s) else match get key m with Some y => if isVar s then Some (load false (p ++ [PKey key]) y) else Some (HStr s) | None => Some (HStr s) end | x => Some (load true (p ++ [PKey key]) x) end).
        { unfold fget. rewrite Pe, Pa, G. destruct x; reflexivity. }
        assert (FF : fget false p key = if match x with DStr s => if list_eq_dec Z.eq_dec s ANY then true else false | _ => false end then Some (HStr ANY) else option_map (load false (p ++ [PKey key])) (get key m)).
        { unfold fget. rewrite Pe, Pa, G. destruct x; reflexivity. }
        pose proof (PEk key) as Px. rewrite G in Px. pose proof (PAk key) as Py.
        assert (Snoc : forall r, p ++ PKey key :: r = (p ++ [PKey key]) ++ r) by (intro r; rewrite <- app_assoc; reflexivity).
        (* no such member *)
        assert (Missing : get key m = None -> fget true p key = Some (load true (p ++ [PKey key]) x) -> fget false p key = None -> mpost (key :: keys) s' (loop keys s')).
        { intros Gm F1 F2. rewrite Gm in Py. assert (No : forall r, part A (p ++ PKey key :: r) = None) by (intro r; rewrite Snoc, part_app, Py; reflexivity). apply Keep.
          - intros r (l1 & m1 & _ & P). rewrite No in P. discriminate.
          - intros r _. apply No.
          - exact F1.
          - rewrite F2, Gm. reflexivity.
          - intro env. split; [intros name y _ _ _ P; congruence|]. intros r k name y _ _ _ P. rewrite <- app_assoc in P. cbn [app] in P. rewrite No in P. discriminate. }
        (* a string: nothing below it *)
        assert (Str : forall str, x = DStr str -> (forall r, ~ both (p ++ PKey key :: r)) /\ (forall r, part E (p ++ PKey key :: r) = Some DNull -> part A (p ++ PKey key :: r) = None) /\ forall env, cons env (p ++ [PKey key])).
        { intros str ->. assert (No : forall r, part E (p ++ PKey key :: r) = Some (DStr str) \/ part E (p ++ PKey key :: r) = None) by (intro r; rewrite Snoc, part_app, Px; destruct r as [|[k|i] r]; auto). split; [|split].
          - intros r (l1 & m1 & P & _). destruct (No r); congruence.
          - intros r P. destruct (No r); congruence.
          - intros env r k name y P. rewrite part_app, Px in P. destruct r as [|[k'|i] r]; discriminate P. }
        (* a member to go into *)
        assert (Into : (forall str, x <> DStr str) -> x <> DNull -> mpost (key :: keys) s'
          (match get key (hp s' (false, p)) with
           | None => loop keys s'
           | Some actualElem => (fun o => match o with Done s => loop keys s | o => o end) (substituteVars order size fuel s' (load true (p ++ [PKey key]) x) actualElem)
           end)).
        { intros Ns Nx. assert (F1 : fget true p key = Some (load true (p ++ [PKey key]) x)) by (rewrite FT; destruct x; try reflexivity; destruct (Ns s0); reflexivity).
          assert (F2 : fget false p key = option_map (load false (p ++ [PKey key])) (get key m)) by (rewrite FF; destruct x; try reflexivity; destruct (Ns s0); reflexivity).
          rewrite GA. destruct (get key m) as [y|] eqn:Gm; cbn [option_map]; [|apply Missing; auto].
          specialize (IH (p ++ [PKey key]) x y s' Px Py Dx I'). assert (Oi : forall side r, hp s' (side, (p ++ [PKey key]) ++ r) = orig (side, (p ++ [PKey key]) ++ r)) by (intros side r; rewrite <- Snoc; apply O'; left; reflexivity).
          specialize (IH Oi).
          assert (NVx : ~ is_variable x) by (intros (t & Q & _); destruct (Ns t Q)).
          destruct (substituteVars order size fuel s' (load true (p ++ [PKey key]) x) (load false (p ++ [PKey key]) y)) as [s1| | |]; cbn [post] in IH.
          - destruct IH as (I1 & Fr & K1 & Nn1 & V1).
            assert (Sf : forall side, hp s1 (side, p) = hp s' (side, p)) by (intro side; apply Fr; intro r; apply self_child).
            apply Go.
            + apply Upd; auto.
              * intros side q _ Q. apply Fr. intro r. rewrite <- Snoc. apply Q.
              * intro side. rewrite Sf. apply ND.
              * intros side k _. rewrite Sf. reflexivity.
              * intros [|]; rewrite Sf; [rewrite GE, F1; reflexivity|rewrite GA, F2; reflexivity].
              * intros side r. rewrite Snoc. apply K1.
              * intro r. rewrite Snoc. apply Nn1.
            + intros side q Q. apply Fr. now apply noext.
            + intro env. rewrite V1. split; [intros [Hv C]; split; [exact Hv|split; [|exact C]]|tauto]. intros name y' P. rewrite Px in P. injection P as P. destruct (Ns name P).
          - intro H. inversion H as [| | | |? ? _ Hm]; subst. apply IH. exact (Hm _ _ _ G NVx Gm).
          - intros env Hv C. apply (IH env Hv). apply (C key). left. reflexivity.
          - exact IH. }
        destruct x as [|b|z|str|l1|l1]; try (apply Into; discriminate).
        - cbn [load]. intro H. inversion H as [| | | |? ? Kf Hm]; subst. assert (NA : get key l <> Some (DStr ANY)) by (rewrite G; discriminate). destruct (get key m) as [y|] eqn:Gm; [|apply (proj2 (Kf key NA)) in Gm; congruence].
          assert (NVx : ~ is_variable DNull) by (intros (t & Q & _); discriminate Q). specialize (Hm _ _ _ G NVx Gm). inversion Hm.
        - destruct (Str str eq_refl) as (S1 & S2 & S3). cbn [load]. destruct (list_eq_dec Z.eq_dec str (bs "{ANYTHING}")) as [->|NA].
          + destruct (list_eq_dec Z.eq_dec (bs "{ANYTHING}") ANY) as [_|Q]; [|destruct Q; reflexivity].
            set (s1 := setMap s' (false, p) (put key (HStr (bs "{ANYTHING}")) (hp s' (false, p)))).
            assert (H1 : forall q, hp s1 (true, q) = hp s' (true, q)) by (intro q; unfold s1, setMap; cbn [hp]; destruct (addr_eq (true, q) (false, p)); [discriminate|reflexivity]).
            assert (H2 : forall q, q <> p -> hp s1 (false, q) = hp s' (false, q)) by (intros q Q; unfold s1, setMap; cbn [hp]; destruct (addr_eq (false, q) (false, p)); [congruence|reflexivity]).
            assert (H3 : hp s1 (false, p) = put key (HStr (bs "{ANYTHING}")) (hp s' (false, p))) by (unfold s1, setMap; cbn [hp]; destruct (addr_eq (false, p) (false, p)); [reflexivity|congruence]).
            assert (I1 : Inv s1). { split; [|exact (proj2 I')]. intros [|] q Q; [rewrite H1|rewrite H2 by (intros ->; contradiction)]; apply (proj1 I'); exact Q. }
            apply Go.
            * apply Upd; auto.
              -- intros [|] q Q _; auto.
              -- intros [|]; [rewrite H1; apply ND|rewrite H3; apply nodup_put; apply ND].
              -- intros [|] k Q; [rewrite H1; reflexivity|rewrite H3, get_put; destruct (list_eq_dec Z.eq_dec key k); [congruence|reflexivity]].
              -- intros [|]; [rewrite H1, GE, FT; reflexivity|rewrite H3, get_put, FF; destruct (list_eq_dec Z.eq_dec key key); [reflexivity|congruence]].
              -- intros side r. apply notboth_ok; auto.
            * intros [|] q Q; [apply H1|apply H2]. intros ->. apply (Q []). now rewrite app_nil_r.
            * intro env. change (V s1 env) with (V s' env). split; [intro Hv; split; [exact Hv|split; [|apply S3]]|tauto]. intros name y P _ N1. rewrite Px in P. injection P as <-. destruct N1. reflexivity.
          + destruct (list_eq_dec Z.eq_dec str ANY) as [Q|_]; [destruct (NA Q)|]. rewrite GA. destruct (get key m) as [y|] eqn:Gm; cbn [option_map]; [|apply Missing; auto].
            destruct (isVar str) eqn:IV.
            * set (s1 := setMap s' (true, p) (put key (load false (p ++ [PKey key]) y) (hp s' (true, p)))).
              assert (H1 : forall q, hp s1 (false, q) = hp s' (false, q)) by (intro q; unfold s1, setMap; cbn [hp]; destruct (addr_eq (false, q) (true, p)); [discriminate|reflexivity]).
              assert (H2 : forall q, q <> p -> hp s1 (true, q) = hp s' (true, q)) by (intros q Q; unfold s1, setMap; cbn [hp]; destruct (addr_eq (true, q) (true, p)); [congruence|reflexivity]).
              assert (H3 : hp s1 (true, p) = put key (load false (p ++ [PKey key]) y) (hp s' (true, p))) by (unfold s1, setMap; cbn [hp]; destruct (addr_eq (true, p) (true, p)); [reflexivity|congruence]).
              assert (I1 : Inv s1). { split; [|exact (proj2 I')]. intros [|] q Q; [rewrite H2 by (intros ->; contradiction)|rewrite H1]; apply (proj1 I'); exact Q. }
              pose proof (bind_ok fuel s1 str _ y F0 I1 Py Px) as B. assert (Hv1 : forall env, V s1 env <-> V s' env) by (intro; reflexivity).
              assert (Hh : forall env, here env (p ++ [PKey key]) <-> same (env str) y).
              { intro env. split; [intro H; apply (H str y Px); [now apply isVar_iff|exact NA|exact Py]|]. intros Sm name y' P _ _ P'. rewrite Px in P. rewrite Py in P'. injection P as <-. injection P' as <-. exact Sm. }
              destruct (bind order size fuel s1 str (load false (p ++ [PKey key]) y)) as [s2| | |].
              -- destruct B as (Hh2 & I2 & V2). apply Go.
                 ++ apply Upd; auto; rewrite Hh2.
                    ** intros [|] q Q _; auto.
                    ** intros [|]; [rewrite H3; apply nodup_put; apply ND|rewrite H1; apply ND].
                    ** intros [|] k Q; [rewrite H3, get_put; destruct (list_eq_dec Z.eq_dec key k); [congruence|reflexivity]|rewrite H1; reflexivity].
                    ** intros [|]; [rewrite H3, get_put, FT; destruct (list_eq_dec Z.eq_dec key key); [reflexivity|congruence]|rewrite H1, GA, FF; reflexivity].
                    ** intros side r. change (okAt (hp s1) side (p ++ PKey key :: r)) || rewrite <- Hh2. apply notboth_ok; auto.
                 ++ intros side q Q. rewrite Hh2. assert (q <> p) by (intros ->; apply (Q []); now rewrite app_nil_r). destruct side; auto.
                 ++ intro env. rewrite V2, Hv1, Hh. specialize (S3 env). tauto.
              -- destruct B.
              -- intros env Hv C. apply (B env Hv). apply (proj1 (Hh env)). apply (C key). left. reflexivity.
              -- destruct B.
            * apply Keep; auto. intro env. split; [|apply S3]. intros name y' P Br. rewrite Px in P. injection P as <-. apply isVar_iff in Br. congruence. }
      specialize (L (order (visits s) (map fst (hp s (true, p)))) (mkState (hp s) (vars s) (S (visits s)))).
      assert (Hm : map fst (hp s (true, p)) = map fst l). { specialize (O true []). rewrite app_nil_r in O. rewrite O. unfold heapOf. rewrite Pe. apply (map_fst_map (fun k x => load true (p ++ [PKey k]) x)). }
      rewrite Hm in *. pose proof (PO (visits s) (map fst l)) as P.
      assert (Kl : forall k, In k (order (visits s) (map fst l)) <-> In k (map fst l)) by (intro k; split; apply Permutation_in; [exact P|apply Permutation_sym; exact P]).
      assert (Pr : pre (order (visits s) (map fst l)) (mkState (hp s) (vars s) (S (visits s)))).
      { assert (Oself : forall side, hp s (side, p) = orig (side, p)) by (intro side; specialize (O side []); rewrite app_nil_r in O; exact O).
        split; [exact I|]. split; [intros side k r _; apply O|]. split; [intro side; cbn [hp]; rewrite Oself; apply orig_nodup|].
        assert (No : forall k r, ~ In k (order (visits s) (map fst l)) -> part E (p ++ PKey k :: r) = None).
        { intros k r K. rewrite Kl in K. apply get_none in K. rewrite part_app, Pe. cbn [obind part]. rewrite K. reflexivity. }
        split; [|split].
        - intros side k. cbn [hp]. rewrite Oself. destruct (in_dec (list_eq_dec Z.eq_dec) k (order (visits s) (map fst l))) as [K|K]; [reflexivity|]. rewrite Kl in K. apply get_none in K.
          unfold fget. rewrite Pe, Pa, K. destruct side; [rewrite OE, K; reflexivity|apply OA].
        - intros side k r K. apply notboth_ok; [exact I|]. intros (l1 & m1 & Q & _). rewrite No in Q by exact K. discriminate.
        - intros k r K Q. rewrite No in Q by exact K. discriminate. }
      specialize (L (Permutation_NoDup (Permutation_sym P) (wf_nodup _ (part_wf _ _ _ WE Pe))) (fun k K => proj1 (Kl k) K) Pr).
      assert (Ck' : forall env, cons env p <-> forall k, In k (order (visits s) (map fst l)) -> here env (p ++ [PKey k]) /\ cons env (p ++ [PKey k])).
      { intro env. rewrite Ck. split; [auto|]. intros H k. destruct (in_dec (list_eq_dec Z.eq_dec) k (order (visits s) (map fst l))) as [K|K]; [auto|]. rewrite Kl in K. apply get_none in K. split.
        - intros name y Q. rewrite PEk, K in Q. discriminate.
        - intros r k' name y Q. rewrite part_app, PEk, K in Q. discriminate. }
      destruct (loop (order (visits s) (map fst l)) (mkState (hp s) (vars s) (S (visits s)))) as [s2| | |]; unfold mpost in L; cbn [post].
      + destruct L as ((I2 & _ & ND2 & G2 & K2 & Nn2) & F2 & V2). split; [exact I2|]. split; [exact F2|]. split; [|split].
        * intros side [|[k|j] r].
          -- rewrite app_nil_r. split; [apply ND2|]. intro k. rewrite G2. reflexivity.
          -- apply K2. intros [].
          -- apply notboth_ok; [exact I2|]. intros (l1 & m1 & Q & _). rewrite part_app, Pe in Q. discriminate.
        * intros [|[k|j] r] Q; [rewrite app_nil_r, Pe in Q; discriminate|apply Nn2; [intros []|exact Q]|rewrite part_app, Pe in Q; discriminate].
        * intro env. rewrite V2, Ck'. reflexivity.
      + exact L.
      + intros env Hv C. apply (L env Hv). apply Ck'. exact C.
      + exact L.
  Qed.

  Lemma matches_iff : forall env e p a, part E p = Some e -> part A p = Some a -> (matches env e a <-> fits e a /\ cons env p).
  Proof.
    intro env. induction e as [|b|z|str|l IH|l IH] using doc_rect'; intros p a Pe Pa; (split; [intro M; split; [eapply matches_fits; eauto|]|intros [F C]]).
    - inversion M.
    - inversion F.
    - intros r k name y P. rewrite part_app, Pe in P. destruct r as [|[k'|i] r]; discriminate P.
    - inversion F; constructor.
    - intros r k name y P. rewrite part_app, Pe in P. destruct r as [|[k'|i] r]; discriminate P.
    - inversion F; constructor.
    - intros r k name y P. rewrite part_app, Pe in P. destruct r as [|[k'|i] r]; discriminate P.
    - inversion F; constructor.
    - inversion M as [| | |? m Fa|]; subst. intros r k name y P B N P'. rewrite part_app, Pe in P. rewrite part_app, Pa in P'. destruct r as [|[k'|i] r]; try discriminate P. cbn [obind part app] in P, P'.
      destruct (nth_error l i) as [x|] eqn:Nx; [|discriminate P]. destruct (nth_error m i) as [z|] eqn:Ny; [|discriminate P']. cbn [obind] in P, P'.
      assert (Mx : matches env x z). { clear - Fa Nx Ny. revert i Nx Ny. induction Fa as [|x0 y0 l m M0 Fa IH]; intros [|i] Nx Ny; try discriminate; cbn in Nx, Ny; [congruence|eauto]. }
      rewrite Forall_forall in IH. specialize (IH x (nth_error_In _ _ Nx) (p ++ [PIndex i]) z).
      assert (Q1 : part E (p ++ [PIndex i]) = Some x) by (rewrite part_app, Pe; cbn [obind part]; rewrite Nx; reflexivity).
      assert (Q2 : part A (p ++ [PIndex i]) = Some z) by (rewrite part_app, Pa; cbn [obind part]; rewrite Ny; reflexivity).
      apply (proj2 (proj1 (IH Q1 Q2) Mx) r k name y); auto; rewrite part_app; [rewrite Q1|rewrite Q2]; assumption.
    - inversion F as [| | |? m Fa|]; subst. constructor.
      assert (H : forall i x z, nth_error l i = Some x -> nth_error m i = Some z -> fits x z -> matches env x z).
      { intros i x z Nx Ny Fx. rewrite Forall_forall in IH. apply (IH x (nth_error_In _ _ Nx) (p ++ [PIndex i]) z).
        - rewrite part_app, Pe. cbn [obind part]. rewrite Nx. reflexivity.
        - rewrite part_app, Pa. cbn [obind part]. rewrite Ny. reflexivity.
        - split; [exact Fx|]. intros r k. rewrite <- app_assoc. exact (C (PIndex i :: r) k). }
      clear - Fa H. induction Fa as [|x y l m Fx Fa IHf]; constructor; [apply (H 0%nat); auto|]. apply IHf. intros i x' z' Nx Nz. apply (H (S i)); assumption.
    - inversion M as [| | | |? m K Hv Hm]; subst. intros r k name y P B N P'.
      destruct r as [|[k'|i] r].
      + rewrite part_app, Pe in P. rewrite part_app, Pa in P'. cbn [obind part app] in P, P'. destruct (get k l) as [x|] eqn:Gx; [|discriminate P]. destruct (get k m) as [z|] eqn:Gy; [|discriminate P']. injection P as ->. injection P' as ->. eapply Hv; eauto.
      + rewrite part_app, Pe in P. rewrite part_app, Pa in P'. cbn [obind part app] in P, P'. destruct (get k' l) as [x|] eqn:Gx; [|discriminate P]. destruct (get k' m) as [z|] eqn:Gy; [|discriminate P']. cbn [obind] in P, P'.
        assert (NV : ~ is_variable x) by (intros (t & -> & _); destruct r as [|[?|?] r]; discriminate P).
        rewrite Forall_forall in IH. specialize (IH _ (get_some_in _ _ _ Gx) (p ++ [PKey k']) z). cbn [snd] in IH.
        assert (Q1 : part E (p ++ [PKey k']) = Some x) by (rewrite part_app, Pe; cbn [obind part]; rewrite Gx; reflexivity).
        assert (Q2 : part A (p ++ [PKey k']) = Some z) by (rewrite part_app, Pa; cbn [obind part]; rewrite Gy; reflexivity).
        apply (proj2 (proj1 (IH Q1 Q2) (Hm _ _ _ Gx NV Gy)) r k name y); auto; rewrite part_app; [rewrite Q1|rewrite Q2]; assumption.
      + rewrite part_app, Pe in P. discriminate P.
    - inversion F as [| | | |? m K Hm]; subst.
      assert (Q1 : forall k, part E (p ++ [PKey k]) = get k l) by (intro k; rewrite part_app, Pe; cbn [obind part]; destruct (get k l); reflexivity).
      assert (Q2 : forall k, part A (p ++ [PKey k]) = get k m) by (intro k; rewrite part_app, Pa; cbn [obind part]; destruct (get k m); reflexivity).
      constructor.
      + exact K.
      + intros k name y G B N Gy. apply (C [] k name y); auto; cbn [app]; [rewrite Q1|rewrite Q2]; assumption.
      + intros k x y G NV Gy. rewrite Forall_forall in IH. apply (IH _ (get_some_in _ _ _ G) (p ++ [PKey k]) y); [rewrite Q1; exact G|rewrite Q2; exact Gy|]. split; [eapply Hm; eauto|].
        intros r k'. rewrite <- app_assoc. exact (C (PKey k :: r) k').
  Qed.

  Lemma env_exists : forall s, Inv s -> exists env, V s env.
  Proof.
    intros s [_ H]. assert (G : forall names, exists env : bytes -> doc, forall name v, In name names -> get name (vars s) = Some v -> exists y, denotes (value v) y /\ same (env name) y).
    { induction names as [|n names (env & IH)]; [exists (fun _ => DNull); intros ? ? []|].
      destruct (get n (vars s)) as [v|] eqn:G.
      - destruct (H n v G) as (_ & y & D). exists (fun x => if list_eq_dec Z.eq_dec n x then y else env x). intros name w I Gw. destruct (list_eq_dec Z.eq_dec n name) as [<-|N].
        + rewrite G in Gw. injection Gw as <-. exists y. split; [exact D|apply same_refl].
        + destruct I as [I|I]; [contradiction|eauto].
      - exists env. intros name w [<-|I] Gw; [congruence|eauto]. }
    destruct (G (map fst (vars s))) as (env & He). exists env. intros name v Gv. apply He; [eapply get_key; eauto|exact Gv].
  Qed.
End Run.

Lemma must_ok : forall E A order fuel, wf E -> wf A -> plain E -> (forall i l, Permutation (order i l) l) -> (depth E <= fuel)%nat ->
  match substituteVars order (depth E + depth A) fuel (mkState (heapOf E A) [] 0) (load true [] E) (load false [] A) with
  | Done s => deepEqual (depth E + depth A) (hp s) (load true [] E) (load false [] A) = true <-> exists env, matches env E A
  | Unfinished => False
  | _ => ~ exists env, matches env E A
  end.
Proof.
  intros E A order fuel WE WA PE PO F. set (s0 := mkState (heapOf E A) [] 0).
  assert (I0 : Inv E A s0) by (split; [reflexivity|discriminate]).
  assert (V0 : forall env, V E A s0 env) by (intros env name v G; discriminate G).
  pose proof (run_ok E A WE WA PE order (depth E + depth A) PO ltac:(lia) fuel [] E A s0 eq_refl eq_refl F I0 (fun side r => eq_refl)) as R.
  assert (MI : forall env, matches env E A <-> fits E A /\ cons E A env []) by (intro env; apply matches_iff; reflexivity).
  destruct (substituteVars order (depth E + depth A) fuel s0 (load true [] E) (load false [] A)) as [s| | |]; cbn [post] in R.
  - destruct R as (I1 & _ & K & Nn & Hv). rewrite (deep_final E A WA (hp s) (depth E + depth A) [] E A (proj1 I1) K Nn eq_refl eq_refl (le_n _)). split.
    + intro Fi. destruct (env_exists E A s I1) as (env & Ve). exists env. apply MI. split; [exact Fi|]. apply Hv. exact Ve.
    + intros (env & M). apply MI in M. tauto.
  - intros (env & M). apply MI in M. tauto.
  - intros (env & M). apply MI in M. apply (R env (V0 env)). tauto.
  - exact R.
Qed.
