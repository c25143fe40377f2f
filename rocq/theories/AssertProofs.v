From Coq Require Import Permutation.
From Verif Require Import Base AssertModel AssertSpec.

(** * Lists of members *)
Section Members.
  Variable V : Type.
  Implicit Types l m : list (bytes * V).
  Lemma get_none : forall k l, get k l = None <-> ~ In k (map fst l).
  Proof.
    intros k l. induction l as [|[k' v] l IH]; cbn [get map fst In]; [tauto|]. destruct (list_eq_dec Z.eq_dec k' k) as [E|E]; [|tauto].
    split; [discriminate|tauto].
  Qed.
  Lemma get_some_in : forall k l v, get k l = Some v -> In (k, v) l.
  Proof.
    intros k l v. induction l as [|[k' v'] l IH]; cbn [get In]; [discriminate|]. destruct (list_eq_dec Z.eq_dec k' k) as [E|E]; [intros [= ->]; subst; auto|auto].
  Qed.
  Lemma get_key : forall k l v, get k l = Some v -> In k (map fst l).
  Proof. intros k l v G. apply get_some_in in G. apply in_map_iff. exists (k, v). auto. Qed.
  Lemma in_get : forall k l v, NoDup (map fst l) -> In (k, v) l -> get k l = Some v.
  Proof.
    intros k l v. induction l as [|[k' v'] l IH]; cbn [get In map fst]; intros N I; [destruct I|]. inversion N as [|? ? N1 N2]; subst.
    destruct (list_eq_dec Z.eq_dec k' k) as [E|E].
    - destruct I as [I|I]; [congruence|]. subst. destruct N1. apply in_map_iff. exists (k, v). auto.
    - destruct I as [I|I]; [congruence|auto].
  Qed.
  Lemma get_in_key : forall k l, In k (map fst l) -> exists v, get k l = Some v.
  Proof. intros k l I. destruct (get k l) as [v|] eqn:G; [eauto|]. apply get_none in G. contradiction. Qed.
  Lemma get_del : forall k k' l, get k (del k' l) = if list_eq_dec Z.eq_dec k' k then None else get k l.
  Proof.
    intros k k' l. unfold del. induction l as [|[x v] l IH]; cbn [filter get fst]; [destruct (list_eq_dec Z.eq_dec k' k); reflexivity|].
    destruct (list_eq_dec Z.eq_dec x k') as [E|E]; cbn [get]; rewrite IH; destruct (list_eq_dec Z.eq_dec x k), (list_eq_dec Z.eq_dec k' k); subst; congruence.
  Qed.
  Lemma get_put : forall k k' v l, get k (put k' v l) = if list_eq_dec Z.eq_dec k' k then Some v else get k l.
  Proof. intros. unfold put. cbn [get]. rewrite get_del. destruct (list_eq_dec Z.eq_dec k' k); reflexivity. Qed.
  Lemma nodup_del : forall k l, NoDup (map fst l) -> NoDup (map fst (del k l)).
  Proof.
    intros k l. unfold del. induction l as [|[x v] l IH]; cbn [filter map fst]; intro N; [exact N|]. inversion N as [|? ? N1 N2]; subst.
    destruct (list_eq_dec Z.eq_dec x k); auto. cbn [map fst]. constructor; auto. intro I. apply N1. apply in_map_iff in I as ((y & w) & <- & I). apply filter_In in I as [I _].
    apply in_map_iff. exists (y, w). auto.
  Qed.
  Lemma nodup_put : forall k v l, NoDup (map fst l) -> NoDup (map fst (put k v l)).
  Proof.
    intros k v l N. unfold put. cbn [map fst]. constructor; [|now apply nodup_del]. intro I. apply get_in_key in I as (w & G). rewrite get_del in G.
    destruct (list_eq_dec Z.eq_dec k k); congruence.
  Qed.
End Members.
Arguments get_none {V}. Arguments get_some_in {V}. Arguments get_key {V}. Arguments in_get {V}. Arguments get_in_key {V}. Arguments get_del {V}. Arguments get_put {V}.
Arguments nodup_del {V}. Arguments nodup_put {V}.

(** Two maps with the same keys have as many; a map that has the keys of another one with as many has no others *)
Lemma keys_length : forall V W (l : list (bytes * V)) (m : list (bytes * W)), NoDup (map fst l) -> NoDup (map fst m) -> (forall k, get k l = None <-> get k m = None) -> List.length l = List.length m.
Proof.
  intros V W l m N M K. rewrite <- (map_length fst l), <- (map_length fst m). apply Nat.le_antisymm; apply NoDup_incl_length; auto; intros k I.
  - destruct (in_dec (list_eq_dec Z.eq_dec) k (map fst m)) as [J|J]; [exact J|]. apply get_none, K, get_none in J. contradiction.
  - destruct (in_dec (list_eq_dec Z.eq_dec) k (map fst l)) as [J|J]; [exact J|]. apply get_none, K, get_none in J. contradiction.
Qed.
Lemma keys_same : forall V W (l : list (bytes * V)) (m : list (bytes * W)), NoDup (map fst l) -> List.length l = List.length m -> (forall k, get k m = None -> get k l = None) ->
  forall k, get k l = None <-> get k m = None.
Proof.
  intros V W l m N L K k. split; [|apply K]. intro G. apply get_none. intro I. apply get_none in G. apply G.
  apply (NoDup_length_incl (l := map fst l) (l' := map fst m)); [exact N|rewrite !map_length; lia| |exact I].
  intros x X. destruct (in_dec (list_eq_dec Z.eq_dec) x (map fst m)) as [J|J]; [exact J|]. apply get_none, K, get_none in J. contradiction.
Qed.

(** * Documents *)
Lemma doc_rect' : forall P : doc -> Prop, P DNull -> (forall b, P (DBool b)) -> (forall x, P (DNum x)) -> (forall s, P (DStr s)) ->
  (forall l, Forall P l -> P (DSlice l)) -> (forall l, Forall (fun p => P (snd p)) l -> P (DMap l)) -> forall d, P d.
Proof.
  intros P H1 H2 H3 H4 H5 H6. fix go 1. intros [| b | x | s | l | l]; [exact H1|apply H2|apply H3|apply H4|apply H5|apply H6].
  - induction l as [|x l IH]; constructor; [apply go|exact IH].
  - induction l as [|[k x] l IH]; constructor; [apply go|exact IH].
Qed.
Lemma wf_get : forall l k x, wf (DMap l) -> get k l = Some x -> wf x.
Proof. intros l k x W G. inversion W as [| | | | |? _ F]; subst. apply get_some_in in G. rewrite Forall_forall in F. exact (F _ G). Qed.
Lemma wf_nodup : forall l, wf (DMap l) -> NoDup (map fst l).
Proof. intros l W. inversion W; auto. Qed.

Lemma docEqual_iff : forall x y, wf x -> wf y -> docEqual x y = true <-> same x y.
Proof.
  intro x. induction x as [|b|z|s|l IH|l IH] using doc_rect'; intros y Wx Wy.
  - destruct y; cbn; (split; [intro; try discriminate; constructor|intro H; inversion H; reflexivity]).
  - destruct y as [|b'| | | |]; cbn; try (split; [discriminate|intro H; inversion H]). split; [intro H; apply eqb_prop in H; subst; constructor|intro H; inversion H; apply eqb_reflx].
  - destruct y as [| |z'| | |]; cbn; try (split; [discriminate|intro H; inversion H]). split; [intro H; apply Z.eqb_eq in H; subst; constructor|intro H; inversion H; apply Z.eqb_refl].
  - destruct y as [| | |s'| |]; cbn; try (split; [discriminate|intro H; inversion H]). destruct (list_eq_dec Z.eq_dec s s') as [->|N].
    + split; [constructor|reflexivity].
    + split; [discriminate|intro H; inversion H; congruence].
  - destruct y as [| | | |m|]; cbn; try (split; [discriminate|intro H; inversion H]). inversion Wx as [| | | |? Fx|]; subst. inversion Wy as [| | | |? Fy|]; subst.
    transitivity (Forall2 same l m); [|split; [constructor; auto|intro H; inversion H; auto]]. clear Wx Wy. revert m Fy. induction l as [|a l IHl]; intros m Fy; destruct m as [|c m].
    + split; constructor.
    + split; [discriminate|intro H; inversion H].
    + split; [discriminate|intro H; inversion H].
    + inversion IH; subst. inversion Fx; subst. inversion Fy; subst. rewrite andb_true_iff. rewrite IHl by assumption. rewrite H1 by assumption. split; [intros [A B]; constructor; auto|intro H; inversion H; auto].
  - destruct y as [| | | | |m]; try (cbn; split; [discriminate|intro H; inversion H]; fail). pose proof (wf_nodup _ Wx) as Nx. pose proof (wf_nodup _ Wy) as Ny.
    change (docEqual (DMap l) (DMap m)) with (Nat.eqb (List.length l) (List.length m) &&
      (fix all l := match l with [] => true | (k, a) :: l => match get k m with Some b => docEqual a b | None => false end && all l end) l).
    assert (A : (fix all l := match l with [] => true | (k, a) :: l => match get k m with Some b => docEqual a b | None => false end && all l end) l = true <->
      forall k x, get k l = Some x -> exists y, get k m = Some y /\ same x y).
    { transitivity (forall k x, In (k, x) l -> exists y, get k m = Some y /\ same x y).
      2:{ split; intros H k x I; [apply H; now apply get_some_in|apply H; now apply in_get]. }
      assert (Wl : Forall (fun p => wf (snd p)) l) by (inversion Wx; auto). clear Wx Nx. induction l as [|[k x] l IHl]; [split; [intros _ k x []|reflexivity]|].
      inversion IH as [|? ? IHx IHr]; subst. inversion Wl as [|? ? Wk Wr]; subst. cbn [snd] in *. rewrite andb_true_iff, IHl by assumption. split.
      - intros [A B] k' x' [I|I]; [|auto]. injection I as <- <-. destruct (get k m) as [y|] eqn:G; [|discriminate A]. exists y. split; [reflexivity|]. apply IHx; auto. eapply wf_get; eauto.
      - intro H. split; [|intros k' x' I; apply H; right; exact I]. destruct (H k x (or_introl eq_refl)) as (y & G & S). rewrite G. apply IHx; auto. eapply wf_get; eauto. }
    rewrite andb_true_iff, Nat.eqb_eq, A. clear A. split.
    + intros [L H]. constructor.
      * apply keys_same; auto. intros k G. destruct (get k l) as [x|] eqn:E; [|reflexivity]. destruct (H _ _ E) as (y & G' & _). congruence.
      * intros k x y Gl Gm. destruct (H _ _ Gl) as (y' & G' & S). congruence.
    + intro H. inversion H as [| | | | |? ? K S]; subst. split; [now apply keys_length|]. intros k x G. destruct (get k m) as [y|] eqn:E; [eauto|]. apply K in E. congruence.
Qed.

(** * maskAnything *)
Inductive masked : doc -> doc -> doc -> Prop :=
| masked_map : forall l m m', NoDup (map fst m') ->
    (forall k, get k l = None -> get k m' = get k m) -> (forall k, get k l = Some ANYTHING -> get k m' = Some ANYTHING) ->
    (forall k x, get k l = Some x -> x <> ANYTHING -> exists y, get k m = Some y) ->
    (forall k x y, get k l = Some x -> x <> ANYTHING -> get k m = Some y -> exists y', get k m' = Some y') ->
    (forall k x y y', get k l = Some x -> x <> ANYTHING -> get k m = Some y -> get k m' = Some y' -> masked x y y') -> masked (DMap l) (DMap m) (DMap m')
| masked_other : forall e a, e <> DNull -> ~ (is_map e /\ is_map a) -> masked e a a.

Lemma depth_get : forall l k x, get k l = Some x -> (depth x < depth (DMap l))%nat.
Proof.
  intros l k x. cbn [depth]. induction l as [|[k' y] l IH]; [discriminate|]. cbn [get]. destruct (list_eq_dec Z.eq_dec k' k); [intros [= ->]; lia|]. intro G. specialize (IH G). lia.
Qed.
Lemma depth_in : forall l x, In x l -> (depth x < depth (DSlice l))%nat.
Proof.
  intros l x. cbn [depth]. induction l as [|y l IH]; [intros []|]. intros [->|I]; [lia|]. specialize (IH I). lia.
Qed.
Lemma depth_pos : forall d, (1 <= depth d)%nat.
Proof. destruct d; cbn [depth]; lia. Qed.

Lemma mask_ok : forall order, (forall p l, Permutation (order p l) l) -> forall n path e a, (depth e <= n)%nat -> wf e -> wf a ->
  match maskAnything order n path e a with
  | None => stuck e a
  | Some a' => masked e a a' /\ wf a' /\ ~ stuck e a
  end.
Proof.
  intros order PO. induction n as [|n IH]; intros path e a D We Wa; [pose proof (depth_pos e); lia|].
  destruct e as [|b|z|s|l|l]; cbn [maskAnything]; [constructor| | | | |];
    try (repeat split; [constructor; [discriminate|intros [[] _]]|exact Wa|intro St; inversion St]; fail).
  destruct a as [|b|z|s|m|m]; try (repeat split; [constructor; [discriminate|intros [_ []]]|exact Wa|intro St; inversion St]; fail).
  set (loop := fix loop keys am := match keys with [] => _ | _ => _ end).
  assert (L : forall keys am, NoDup keys -> incl keys (map fst l) -> wf (DMap am) ->
    match loop keys am with
    | None => exists k x, In k keys /\ get k l = Some x /\ x <> ANYTHING /\ (get k am = None \/ exists y, get k am = Some y /\ stuck x y)
    | Some d => exists m', d = DMap m' /\ wf (DMap m') /\ (forall k, ~ In k keys -> get k m' = get k am) /\
        forall k x, In k keys -> get k l = Some x ->
          (x = ANYTHING -> get k m' = Some ANYTHING) /\ (x <> ANYTHING -> exists y y', get k am = Some y /\ get k m' = Some y' /\ masked x y y' /\ ~ stuck x y)
    end).
  { induction keys as [|key keys IHk]; intros am N I Wm.
    { unfold loop. exists am. repeat split; auto; try (intros; contradiction). }
    inversion N as [|? ? Nk Nr]; subst. assert (Ir : incl keys (map fst l)) by (intros k K; apply I; right; exact K).
    destruct (get_in_key key l (I key (or_introl eq_refl))) as (x & G). change (loop (key :: keys) am) with
      (match get key l with
       | None => None
       | Some (DStr s) => if list_eq_dec Z.eq_dec s (bs "ANYTHING") then loop keys (put key (DStr (bs "ANYTHING")) am) else match get key am with Some _ => loop keys am | None => None end
       | Some elem => let? a := get key am in let? a := maskAnything order n (path ++ [key]) elem a in loop keys (put key a am)
       end).
    assert (Wput : forall v, wf v -> wf (DMap (put key v am))).
    { intros v Wv. inversion Wm as [| | | | |? Nm Fm]; subst. constructor; [now apply nodup_put|]. unfold put. constructor; [exact Wv|]. apply Forall_forall. intros p P. unfold del in P. apply filter_In in P as [P _].
      rewrite Forall_forall in Fm. auto. }
    (* what a step that puts v and goes on gives *)
    assert (Go : forall v, wf v -> (x = ANYTHING -> v = ANYTHING) -> (x <> ANYTHING -> exists y, get key am = Some y /\ masked x y v /\ ~ stuck x y) ->
      match loop keys (put key v am) with
      | None => exists k x, In k (key :: keys) /\ get k l = Some x /\ x <> ANYTHING /\ (get k am = None \/ exists y, get k am = Some y /\ stuck x y)
      | Some d => exists m', d = DMap m' /\ wf (DMap m') /\ (forall k, ~ In k (key :: keys) -> get k m' = get k am) /\
        forall k x, In k (key :: keys) -> get k l = Some x ->
          (x = ANYTHING -> get k m' = Some ANYTHING) /\ (x <> ANYTHING -> exists y y', get k am = Some y /\ get k m' = Some y' /\ masked x y y' /\ ~ stuck x y)
      end).
    { intros v Wv A B. specialize (IHk (put key v am) Nr Ir (Wput v Wv)).
      assert (Ot : forall k, k <> key -> get k (put key v am) = get k am) by (intros k K; rewrite get_put; destruct (list_eq_dec Z.eq_dec key k); congruence).
      assert (Sm : get key (put key v am) = Some v) by (rewrite get_put; destruct (list_eq_dec Z.eq_dec key key); congruence).
      destruct (loop keys (put key v am)) as [d|].
      - destruct IHk as (m' & -> & Wm' & Q1 & Q2). exists m'. split; [reflexivity|]. split; [exact Wm'|]. split.
        + intros k K. rewrite Q1 by (intro; apply K; right; assumption). apply Ot. intros ->. apply K. left. reflexivity.
        + intros k x' [<-|K] Gk.
          * rewrite G in Gk. injection Gk as <-. rewrite (Q1 _ Nk), Sm. split; [intro E; now rewrite A|]. intro E. destruct (B E) as (y & Gy & M). exists y, v. auto.
          * assert (k <> key) by (intros ->; contradiction). rewrite <- (Ot k) by assumption. apply Q2; assumption.
      - destruct IHk as (k & x' & K & Gk & Nx & P). exists k, x'. assert (k <> key) by (intros ->; contradiction). rewrite Ot in P by assumption. repeat split; auto. right. exact K. }
    rewrite G.
    assert (Gen : x <> ANYTHING -> match (let? a := get key am in let? a := maskAnything order n (path ++ [key]) x a in loop keys (put key a am)) with
      | None => exists k x, In k (key :: keys) /\ get k l = Some x /\ x <> ANYTHING /\ (get k am = None \/ exists y, get k am = Some y /\ stuck x y)
      | Some d => exists m', d = DMap m' /\ wf (DMap m') /\ (forall k, ~ In k (key :: keys) -> get k m' = get k am) /\
        forall k x, In k (key :: keys) -> get k l = Some x ->
          (x = ANYTHING -> get k m' = Some ANYTHING) /\ (x <> ANYTHING -> exists y y', get k am = Some y /\ get k m' = Some y' /\ masked x y y' /\ ~ stuck x y)
      end).
    { intro Nx. destruct (get key am) as [y|] eqn:Gy; cbn [obind].
      - specialize (IH (path ++ [key]) x y). assert (Dx : (depth x <= n)%nat) by (pose proof (depth_get _ _ _ G); lia). specialize (IH Dx (wf_get _ _ _ We G) (wf_get _ _ _ Wm Gy)).
        destruct (maskAnything order n (path ++ [key]) x y) as [y'|]; cbn [obind].
        + destruct IH as (M & Wy & NS). apply Go; [exact Wy|contradiction|]. intros _. exists y. auto.
        + exists key, x. split; [left; reflexivity|]. eauto 8.
      - exists key, x. split; [left; reflexivity|]. auto. }
    destruct x as [| |  |s| |]; try (apply Gen; discriminate).
    destruct (list_eq_dec Z.eq_dec s (bs "ANYTHING")) as [->|Ns].
    - apply Go; [constructor|reflexivity|]. intro K. destruct (K eq_refl).
    - assert (Nx : DStr s <> ANYTHING) by (intros [= ->]; apply Ns; reflexivity). destruct (get key am) as [y|] eqn:Gy.
      + specialize (IHk am Nr Ir Wm). destruct (loop keys am) as [d|].
        * destruct IHk as (m' & -> & Wm' & Q1 & Q2). exists m'. split; [reflexivity|]. split; [exact Wm'|]. split; [intros k K; apply Q1; intro; apply K; right; assumption|].
          intros k x' [<-|K] Gk; [|apply Q2; assumption]. rewrite G in Gk. injection Gk as <-. split; [contradiction|]. intros _. exists y, y. rewrite (Q1 _ Nk).
          repeat split; auto; [constructor; [discriminate|intros [[] _]]|intro St; inversion St].
        * destruct IHk as (k & x' & K & P). exists k, x'. split; [right; exact K|exact P].
      + exists key, (DStr s). split; [left; reflexivity|]. auto. }
  specialize (L (order path (map fst l)) m). pose proof (PO path (map fst l)) as P. assert (Nl := wf_nodup _ We).
  specialize (L (Permutation_NoDup (Permutation_sym P) Nl) (fun k K => Permutation_in _ P K) Wa).
  destruct (loop (order path (map fst l)) m) as [d|].
  - destruct L as (m' & -> & Wm' & Q1 & Q2).
    assert (K : forall k x, get k l = Some x -> In k (order path (map fst l))) by (intros k x G; apply (Permutation_in _ (Permutation_sym P)); eapply get_key; eauto).
    split; [|split; [exact Wm'|]].
    + constructor.
      * now apply wf_nodup.
      * intros k G. apply Q1. intro I. apply (Permutation_in _ P) in I. apply get_none in G. contradiction.
      * intros k G. apply (proj1 (Q2 k _ (K _ _ G) G)). reflexivity.
      * intros k x G N. destruct (proj2 (Q2 k _ (K _ _ G) G) N) as (y & y' & A & _). eauto.
      * intros k x y G N _. destruct (proj2 (Q2 k _ (K _ _ G) G) N) as (y0 & y' & _ & A & _). eauto.
      * intros k x y y' G N A B. destruct (proj2 (Q2 k _ (K _ _ G) G) N) as (y0 & y1 & A' & B' & M & _). congruence.
    + intro St. inversion St as [|? ? k x G N M|? ? k x y G N M S']; subst.
      * destruct (proj2 (Q2 k _ (K _ _ G) G) N) as (y0 & y1 & A' & _). congruence.
      * destruct (proj2 (Q2 k _ (K _ _ G) G) N) as (y0 & y1 & A' & B' & _ & NS). apply NS. congruence.
  - destruct L as (k & x & _ & G & N & [M|(y & M & S')]); [eapply stuck_missing|eapply stuck_in]; eauto.
Qed.

Lemma doc_eq_any : forall x, x = ANYTHING \/ x <> ANYTHING.
Proof. intros [| | |s| |]; try (right; discriminate). destruct (list_eq_dec Z.eq_dec s (bs "ANYTHING")) as [->|N]; [left; reflexivity|right; intro E; injection E as E; contradiction]. Qed.
Lemma masked_same : forall e a a', masked e a a' -> wf e -> wf a -> wf a' -> (same e a' <-> maskable e /\ accepts e a).
Proof.
  intros e. induction e as [|b|z|s|l IH|l IH] using doc_rect'; intros a a' M We Wa Wa'.
  - inversion M; subst; congruence.
  - inversion M; subst. split; [intro Hs; split; [constructor; [intros []|discriminate]|constructor; [intros []|exact Hs]]|]. intros [_ Hs]. inversion Hs; auto.
  - inversion M; subst. split; [intro Hs; split; [constructor; [intros []|discriminate]|constructor; [intros []|exact Hs]]|]. intros [_ Hs]. inversion Hs; auto.
  - inversion M; subst. split; [intro Hs; split; [constructor; [intros []|discriminate]|constructor; [intros []|exact Hs]]|]. intros [_ Hs]. inversion Hs; auto.
  - inversion M; subst. split; [intro Hs; split; [constructor; [intros []|discriminate]|constructor; [intros []|exact Hs]]|]. intros [_ Hs]. inversion Hs; auto.
  - inversion M as [? m m' N1 Q1 Q2 Q3 Q4 Q5|e' a0 NN NM]; subst.
    + rewrite Forall_forall in IH.
      assert (IH' : forall k x y y', get k l = Some x -> x <> ANYTHING -> get k m = Some y -> get k m' = Some y' -> (same x y' <-> maskable x /\ accepts x y)).
      { intros k x y y' G1 N2 G2 G3. apply (IH (k, x)); [now apply get_some_in|eapply Q5; eauto| | |]; [exact (wf_get _ _ _ We G1)|exact (wf_get _ _ _ Wa G2)|exact (wf_get _ _ _ Wa' G3)]. }
      split.
      * intro H. inversion H as [| | | | |? ? K Sm]; subst. split.
        -- constructor. intros k x G. destruct (doc_eq_any x) as [->|N2]; [constructor; [intros []|discriminate]|].
           destruct (Q3 _ _ G N2) as (y & Gy). destruct (Q4 _ _ _ G N2 Gy) as (y' & Gy'). apply (IH' k x y y'); auto. eapply Sm; eauto.
        -- constructor.
           ++ intros k NA. destruct (get k l) as [x|] eqn:G; [|split; [intros _; rewrite <- (Q1 _ G); now apply K|reflexivity]].
              assert (x <> ANYTHING) by congruence. destruct (Q3 _ _ G H0) as (y & ->). split; discriminate.
           ++ intros k x y G N2 Gy. destruct (Q4 _ _ _ G N2 Gy) as (y' & Gy'). apply (IH' k x y y'); auto. eapply Sm; eauto.
      * intros [Mk Ac]. inversion Mk as [? Mk'|? Nm _]; subst; [|destruct (Nm I)]. inversion Ac as [? ? A1 A2|? ? Nm _]; subst; [|destruct (Nm I)]. constructor.
        -- intro k. destruct (get k l) as [x|] eqn:G; [|rewrite (Q1 _ G); split; [intros _; apply A1; congruence|reflexivity]]. destruct (doc_eq_any x) as [->|N2]; [rewrite (Q2 _ G); split; discriminate|].
           destruct (Q3 _ _ G N2) as (y & Gy). destruct (Q4 _ _ _ G N2 Gy) as (y' & ->). split; discriminate.
        -- intros k x y' G Gy'. destruct (doc_eq_any x) as [->|N2]; [rewrite (Q2 _ G) in Gy'; injection Gy' as <-; constructor|].
           destruct (Q3 _ _ G N2) as (y & Gy). apply (IH' k x y y'); auto. split; [eauto|eapply A2; eauto].
    + split; [intro H; inversion H; subst; destruct NM; split; exact I|]. intros [_ H]. inversion H as [? ? ? ?|? ? Nm _]; subst; [destruct NM; split; exact I|destruct (Nm I)].
Qed.
