(** Lemmas about test.Case and the checks. *)
From Verif Require Import Base GlsModel CheckModel CheckSpec.

(** ** Induction over tests *)
Section StmtInd.
  Variable P : stmt -> Prop.
  Hypothesis Hcheck : forall must ok c, P (SCheck must ok c).
  Hypothesis Hpanic : forall must ok f, Forall P f -> P (SPanic must ok f).
  Hypothesis Hmark : forall n, P (SMark n).
  Hypothesis Hthrow : forall v, P (SThrow v).
  Hypothesis Hexit : P SExit.
  Hypothesis Hskip : P SSkip.
  Hypothesis Hcase : forall t f, Forall P f -> P (SCase t f).
  Hypothesis Hwith : forall f, Forall P f -> P (SWithGls f).
  Hypothesis Hgo : forall b f, Forall P f -> P (SGo b f).
  Hypothesis Hrun : forall t f, Forall P f -> P (SRun t f).

  Fixpoint stmt_ind' (s : stmt) : P s :=
    let list_ind := fix list_ind (l : list stmt) : Forall P l :=
      match l with [] => Forall_nil _ | s :: l => Forall_cons _ (stmt_ind' s) (list_ind l) end in
    match s with
    | SCheck must ok c => Hcheck must ok c
    | SPanic must ok f => Hpanic must ok f (list_ind f)
    | SMark n => Hmark n
    | SThrow v => Hthrow v
    | SExit => Hexit
    | SSkip => Hskip
    | SCase t f => Hcase t f (list_ind f)
    | SWithGls f => Hwith f (list_ind f)
    | SGo b f => Hgo b f (list_ind f)
    | SRun t f => Hrun t f (list_ind f)
    end.
End StmtInd.

Lemma exec_panic g must ok f : exec g (SPanic must ok f) =
  ((if must then mustPanic g ok (block g f) else shouldPanic g ok (block g f)) ;;; ret tt).
Proof. reflexivity. Qed.
Lemma exec_case g t f : exec g (SCase t f) = Case g (block g f) t.
Proof. reflexivity. Qed.
Lemma exec_with g f : exec g (SWithGls f) = fun w => withTable g (glsCopy w (GetGls g (maps w))) (block g f) w.
Proof. reflexivity. Qed.
Lemma exec_go g b f : exec g (SGo b f) =
  if b then fun w => let childGls := glsCopy w (GetGls g (maps w)) in spawn (fun g' => withTable g' childGls (block g' f)) w
  else spawn (fun g' => block g' f).
Proof. destruct b; reflexivity. Qed.
Lemma exec_run g t f : exec g (SRun t f) = spawn (fun g' => Case g' (block g' f) t).
Proof. reflexivity. Qed.
Lemma block_cons g s l : block g (s :: l) = (exec g s ;;; block g l).
Proof. reflexivity. Qed.

(** ** What a computation of goroutine g leaves alone *)
Record good (g : Z) (w w' : world) (e : list (Z * effect)) : Prop := mkGood {
  good_maps : forall h, h <> g -> h < nextGoid w -> GetGls h (maps w') = GetGls h (maps w);
  good_tables : exists l, tables w' = tables w ++ l;
  good_next : nextGoid w <= nextGoid w';
  good_eff : forall h x, In (h, x) e -> h = g \/ nextGoid w <= h
}.

Definition good_comp {A} (g : Z) (c : comp A) : Prop := forall w w' e r, g < nextGoid w -> c w = (w', e, r) -> good g w w' e.

Lemma GetGls_reset g h a m : GetGls h (ResetGls g a m) = if h =? g then a else GetGls h m.
Proof.
  unfold GetGls, ResetGls, upd.
  destruct (h =? g) eqn:E.
  - apply Z.eqb_eq in E. subst. rewrite !Z.eqb_refl. reflexivity.
  - destruct (h mod shardsCount =? g mod shardsCount) eqn:E2; [|reflexivity].
    apply Z.eqb_eq in E2. rewrite E, E2. reflexivity.
Qed.
Lemma GetGls_delete g h m : GetGls h (DeleteGls g m) = if h =? g then None else GetGls h m.
Proof.
  unfold GetGls, DeleteGls, upd.
  destruct (h =? g) eqn:E.
  - apply Z.eqb_eq in E. subst. rewrite !Z.eqb_refl. reflexivity.
  - destruct (h mod shardsCount =? g mod shardsCount) eqn:E2; [|reflexivity].
    apply Z.eqb_eq in E2. rewrite E, E2. reflexivity.
Qed.

Lemma good_refl g w : good g w w [].
Proof. split; [reflexivity|exists []; now rewrite app_nil_r|lia|intros ? ? []]. Qed.
Lemma good_one g w x : good g w w [(g, x)].
Proof. split; [reflexivity|exists []; now rewrite app_nil_r|lia|intros h y [H|[]]; injection H; auto]. Qed.
Lemma good_trans g w w' w'' e e' : good g w w' e -> good g w' w'' e' -> good g w w'' (e ++ e').
Proof.
  intros [A1 [l1 B1] C1 D1] [A2 [l2 B2] C2 D2]. split.
  - intros h H1 H2. rewrite A2 by (auto; lia). apply A1; auto.
  - exists (l1 ++ l2). rewrite B2, B1. now rewrite app_assoc.
  - lia.
  - intros h x H. apply in_app_or in H as [H|H]; [eauto|]. apply D2 in H as [H|H]; [auto|right; lia].
Qed.

Lemma good_ret {A} g (x : A) : good_comp g (ret x).
Proof. intros w w' e r _ H. injection H as <- <- <-. apply good_refl. Qed.
Lemma good_abort {A} g a : good_comp g (@abort A a).
Proof. intros w w' e r _ H. injection H as <- <- <-. apply good_refl. Qed.
Lemma good_emit g x : good_comp g (emit g x).
Proof. intros w w' e r _ H. injection H as <- <- <-. apply good_one. Qed.
Lemma good_bind {A B} g (c : comp A) (f : A -> comp B) : good_comp g c -> (forall x, good_comp g (f x)) -> good_comp g (bind c f).
Proof.
  intros Hc Hf w w' e r Hg H. unfold bind in H.
  destruct (c w) as [[w1 e1] [x|a]] eqn:E1.
  - destruct (f x w1) as [[w2 e2] r2] eqn:E2. injection H as <- <- <-.
    pose proof (Hc _ _ _ _ Hg E1) as G. eapply good_trans; [exact G|]. eapply Hf; [|exact E2]. destruct G; lia.
  - injection H as <- <- <-. eapply Hc; eauto.
Qed.
Lemma good_if {A} g (b : bool) (c d : comp A) : good_comp g c -> good_comp g d -> good_comp g (if b then c else d).
Proof. now destruct b. Qed.
Lemma good_CurrentT g : good_comp g (CurrentT g).
Proof.
  intros w w' e r _ H. unfold CurrentT in H.
  destruct (GetGls g (maps w)) as [a|]; [destruct (nth a (tables w) _ testingTType) as [t|]; [destruct (t =? nil_value)|]|];
    injection H as <- <- <-; apply good_refl.
Qed.

Create HintDb good.
#[global] Hint Resolve good_ret good_abort good_emit good_bind good_if good_CurrentT : good.
Ltac gd := repeat first [apply good_bind; [|intro] | apply good_if | apply good_ret | apply good_abort | apply good_emit | apply good_CurrentT].

Lemma good_kvLoop g t kv : good_comp g (kvLoop g t kv).
Proof.
  assert (Hn : forall n kv, (List.length kv <= n)%nat -> good_comp g (kvLoop g t kv)).
  { induction n as [|n IH]; intros l Hl.
    - destruct l; [apply good_ret|cbn in Hl; lia].
    - destruct l as [|[|ty k d] l]; [apply good_ret|apply good_abort|]. cbn [kvLoop].
      apply good_if; [|apply good_abort].
      destruct l as [|v l]; [apply good_abort|]. apply good_bind; [apply good_emit|intros _]. apply IH. cbn in Hl. lia. }
  eapply Hn. reflexivity.
Qed.
Lemma good_tFatal {A} g t x : good_comp g (@tFatal A g t x).
Proof. unfold tFatal. gd. Qed.
Lemma good_tError g t x : good_comp g (tError g t x).
Proof. unfold tError. gd. Qed.

Lemma good_check g must ok c : good_comp g (runCheck g must ok c).
Proof.
  destruct must, c; cbn [runCheck];
  unfold mustNil, mustNotNil, mustEqual, mustAssert, mustPass, shouldNil, shouldNotNil, shouldEqual, shouldPass,
    assertNil, assertNotNil, assertEqual, Fail, tFatal, tError;
  repeat first [apply good_kvLoop | apply good_bind; [|intro] | apply good_if | apply good_ret | apply good_abort | apply good_emit | apply good_CurrentT].
Qed.

Lemma good_panicCheck g t report f : good_comp g report -> good_comp g f -> good_comp g (panicCheck g t report f).
Proof.
  intros Hr Hf w w' e r Hg H. unfold panicCheck in H.
  destruct (f w) as [[w1 e1] r1] eqn:E1. pose proof (Hf _ _ _ _ Hg E1) as G.
  destruct ((b <- assertNotNil g t (recovered r1) ;; if b then ret tt else report) w1) as [[w2 e2] r2] eqn:E2.
  assert (G2 : good g w1 w2 e2).
  { eapply (good_bind g (assertNotNil g t (recovered r1))); [| |destruct G; lia|exact E2].
    - unfold assertNotNil, Fail. gd.
    - intros b. apply good_if; [apply good_ret|exact Hr]. }
  destruct r2; injection H as <- <- <-; eapply good_trans; eauto.
Qed.

Lemma good_mustPanic g ok f : good_comp g f -> good_comp g (mustPanic g ok f).
Proof.
  intros Hf. unfold mustPanic. apply good_bind; [apply good_CurrentT|intro t].
  apply good_if; [apply good_tFatal|]. apply good_panicCheck; [apply good_tFatal|exact Hf].
Qed.
Lemma good_shouldPanic g ok f : good_comp g f -> good_comp g (shouldPanic g ok f).
Proof.
  intros Hf. unfold shouldPanic. apply good_bind; [apply good_CurrentT|intro t].
  apply good_if; [|apply good_panicCheck; [apply good_tError|exact Hf]].
  apply good_bind; [apply good_tError|intro; apply good_ret].
Qed.

Lemma good_withTable g tb f : good_comp g f -> good_comp g (withTable g tb f).
Proof.
  intros Hf w w' e r Hg H. unfold withTable in H.
  match type of H with context [f ?w0] => destruct (f w0) as [[w1 e1] r1] eqn:E1; pose proof (Hf w0 _ _ _ Hg E1) as G end.
  injection H as <- <- <-. destruct G as [A [l B] C D]. cbn in *. split; cbn.
  - intros h H1 H2. rewrite GetGls_delete. apply Z.eqb_neq in H1 as H1'. rewrite H1'. rewrite A by auto.
    rewrite GetGls_reset, H1'. reflexivity.
  - exists (tb :: l). rewrite B, <- app_assoc. reflexivity.
  - lia.
  - exact D.
Qed.

Lemma Case_withTable g f t w : Case g f t w = withTable g (upd (fun _ => None) testingTType (Some t)) f w.
Proof.
  set (w0 := mkWorld (tables w ++ [upd (fun _ => None) testingTType (Some t)])
     (ResetGls g (Some (List.length (tables w))) (maps w)) (nextGoid w)).
  change (match (match f w0 with (w, e, r) => (leaveCase g w, e, r) end) with (w, e', r) => (w, [] ++ e', r) end =
          match f w0 with (w, e, r) => (leaveCase g w, e, r) end).
  destruct (f w0) as [[w1 e1] r1]. reflexivity.
Qed.
Lemma good_Case g f t : good_comp g f -> good_comp g (Case g f t).
Proof. intros Hf w w' e r Hg H. rewrite Case_withTable in H. eapply good_withTable; eauto. Qed.

Lemma good_spawn g (f : Z -> comp unit) : (forall g', good_comp g' (f g')) -> good_comp g (spawn f).
Proof.
  intros Hf w w' e r Hg H. unfold spawn in H.
  match type of H with context [f ?a ?w0] => destruct (f a w0) as [[w1 e1] r1] eqn:E1; assert (G : good a w0 w1 e1) by (eapply Hf; [cbn; lia|exact E1]) end.
  injection H as <- <- <-. destruct G as [A B C D]. cbn in *. split; auto.
  - intros h H1 H2. apply A; lia.
  - lia.
  - intros h x H. right. apply in_app_or in H as [H|[H|[]]].
    + apply D in H. lia.
    + injection H as <- _. lia.
Qed.

Lemma good_block_of l : Forall (fun s => forall g, good_comp g (exec g s)) l -> forall g, good_comp g (block g l).
Proof.
  induction 1 as [|s l H _ IH]; intros g; [apply good_ret|]. rewrite block_cons.
  apply good_bind; [apply H|intros _; apply IH].
Qed.

Lemma good_exec s : forall g, good_comp g (exec g s).
Proof.
  induction s as [must ok c|must ok f IH|n|v| | |t f IH|f IH|b f IH|t f IH] using stmt_ind'; intros g.
  - apply good_check.
  - rewrite exec_panic. apply good_bind; [|intros; apply good_ret].
    apply good_if; [apply good_mustPanic|apply good_shouldPanic]; apply good_block_of, IH.
  - apply good_emit.
  - apply good_abort.
  - apply good_abort.
  - cbn [exec]. unfold Skip. gd.
  - rewrite exec_case. apply good_Case, good_block_of, IH.
  - rewrite exec_with. intros w w' e r Hg H. cbv beta in H. revert w w' e r Hg H.
    intros w w' e r Hg H. eapply good_withTable; [|exact Hg|exact H]. apply good_block_of, IH.
  - rewrite exec_go. destruct b.
    + intros w w' e r Hg H. cbv beta zeta in H. eapply (good_spawn g); [|exact Hg|exact H].
      intros g'. apply good_withTable, good_block_of, IH.
    + apply good_spawn. intros. apply good_block_of, IH.
  - rewrite exec_run. apply good_spawn. intros. apply good_Case, good_block_of, IH.
Qed.
Lemma good_block g l : good_comp g (block g l).
Proof. apply good_block_of. induction l; constructor; auto. apply good_exec. Qed.

(** ** Tests that keep their t *)

Definition hasT (g t : Z) (w : world) : Prop :=
  exists a tb, GetGls g (maps w) = Some a /\ nth_error (tables w) a = Some tb /\ tb testingTType = Some t.

Lemma CurrentT_has g t w : t <> 0 -> hasT g t w -> CurrentT g w = (w, [], inl t).
Proof.
  intros Ht (a & tb & H1 & H2 & H3). unfold CurrentT. rewrite H1, (nth_error_nth _ _ _ H2), H3.
  apply Z.eqb_neq in Ht. unfold nil_value. rewrite Ht. reflexivity.
Qed.

Lemma own_app g e e' : own g (e ++ e') = own g e ++ own g e'.
Proof. unfold own. now rewrite filter_app, map_app. Qed.
Lemma own_self g x : own g [(g, x)] = [x].
Proof. unfold own. cbn. now rewrite Z.eqb_refl. Qed.
Lemma own_none g e : (forall h x, In (h, x) e -> h <> g) -> own g e = [].
Proof.
  intros H. unfold own. induction e as [|[h x] e IH]; [reflexivity|]. cbn.
  assert (Hh : h <> g) by (eapply H; left; reflexivity). apply Z.eqb_neq in Hh. rewrite Hh. apply IH. intros. eapply H. right. eauto.
Qed.

(** A computation that behaves as described with t, as long as g has t, and leaves it so. *)
Definition keeps {A} (g t : Z) (c : comp A) (P : list effect -> A + abrupt -> Prop) : Prop :=
  forall w w' e r, g < nextGoid w -> hasT g t w -> c w = (w', e, r) ->
    g < nextGoid w' /\ hasT g t w' /\ P (own g e) r.

Lemma keeps_weaken {A} g t (c : comp A) (P Q : list effect -> A + abrupt -> Prop) :
  (forall e r, P e r -> Q e r) -> keeps g t c P -> keeps g t c Q.
Proof. intros H K w w' e r Hg Ht E. destruct (K _ _ _ _ Hg Ht E) as (? & ? & ?). auto. Qed.

Lemma keeps_bind {A B} g t (c : comp A) (f : A -> comp B) P Q :
  keeps g t c P -> (forall x, keeps g t (f x) (Q x)) ->
  keeps g t (bind c f) (fun e r => (exists x e1 e2, P e1 (inl x) /\ Q x e2 r /\ e = e1 ++ e2) \/ (exists a, P e (inr a) /\ r = inr a)).
Proof.
  intros Hc Hf w w' e r Hg Ht H. unfold bind in H. destruct (c w) as [[w1 e1] [x|a]] eqn:E1.
  - destruct (f x w1) as [[w2 e2] r2] eqn:E2. injection H as <- <- <-.
    destruct (Hc _ _ _ _ Hg Ht E1) as (Hg1 & Ht1 & HP). destruct (Hf _ _ _ _ _ Hg1 Ht1 E2) as (Hg2 & Ht2 & HQ).
    repeat split; auto. left. exists x, (own g e1), (own g e2). rewrite own_app. auto.
  - injection H as <- <- <-. destruct (Hc _ _ _ _ Hg Ht E1) as (Hg1 & Ht1 & HP). repeat split; auto. right. eauto.
Qed.

Lemma keeps_ret {A} g t (x : A) : keeps g t (ret x) (fun e r => e = [] /\ r = inl x).
Proof. intros w w' e r Hg Ht H. injection H as <- <- <-. auto. Qed.
Lemma keeps_abort {A} g t a : keeps g t (@abort A a) (fun e r => e = [] /\ r = inr a).
Proof. intros w w' e r Hg Ht H. injection H as <- <- <-. auto. Qed.
Lemma keeps_emit g t x : keeps g t (emit g x) (fun e r => e = [x] /\ r = inl tt).
Proof. intros w w' e r Hg Ht H. injection H as <- <- <-. rewrite own_self. auto. Qed.
Lemma keeps_CurrentT g t : t <> 0 -> keeps g t (CurrentT g) (fun e r => e = [] /\ r = inl t).
Proof. intros Hn w w' e r Hg Ht H. rewrite (CurrentT_has _ _ _ Hn Ht) in H. injection H as <- <- <-. auto. Qed.

(** ** nil *)
Lemma isNil_spec v : ok_iface v -> (isNil v = true <-> is_nil v /\ ~ unsafe_nil v).
Proof.
  destruct v as [|ty k d]; cbn; [tauto|]. unfold dynamic_kind, nilable, KChan, KSlice. intros [Hk H20].
  rewrite !andb_true_iff, Z.eqb_eq, !Z.leb_le. cbn [In]. split.
  - intros [[H1 H2] H3]. repeat split; try lia.
  - intros [[H1 H2] H3]. repeat split; try lia.
Qed.
Lemma isNil_false v : ok_iface v -> (isNil v = false <-> ~ is_nil v \/ unsafe_nil v).
Proof.
  intros Hv. pose proof (isNil_spec v Hv) as S. destruct (isNil v).
  - split; [discriminate|]. destruct S as [S _]. destruct (S eq_refl). tauto.
  - split; [intros _|reflexivity].
    assert (Dn : is_nil v \/ ~ is_nil v).
    { destruct v as [|ty k d]; [left; exact Logic.I|]. change ((nilable k /\ d = 0) \/ ~ (nilable k /\ d = 0)).
      assert (D : {nilable k} + {~ nilable k}) by apply (in_dec Z.eq_dec). destruct (Z.eq_dec d 0); destruct D; tauto. }
    assert (Du : unsafe_nil v \/ ~ unsafe_nil v).
    { destruct v as [|ty k d]; cbn; [auto|]. destruct (Z.eq_dec d 0); destruct (Z.eq_dec k 26); tauto. }
    destruct S as [_ S]. destruct Dn as [Dn|Dn], Du as [Du|Du]; auto. exfalso. enough (false = true) by discriminate. apply S. auto.
Qed.

(** ** One check *)
Lemma own_map g e : own g (map (pair g) e) = e.
Proof. unfold own. induction e as [|x e IH]; [reflexivity|]. cbn. rewrite Z.eqb_refl. cbn. now rewrite IH. Qed.

Lemma kv_cases : forall n kv, (List.length kv <= n)%nat -> exists m, paired kv m \/ unpaired kv m.
Proof.
  induction n as [|n IH]; intros kv Hl.
  - destruct kv; [|cbn in Hl; lia]. exists 0%nat. left. constructor.
  - destruct kv as [|v kv]; [exists 0%nat; left; constructor|].
    assert (D : (exists k d, v = IVal 24 k d) \/ (forall k d, v <> IVal 24 k d)).
    { destruct v as [|ty k d]; [right; discriminate|]. destruct (Z.eq_dec ty 24) as [->|Hk]; [left; eauto|].
      right. intros k' d' H. injection H as H _ _. contradiction. }
    destruct D as [(ty & d & ->)|D]; [|exists 0%nat; right; now constructor].
    destruct kv as [|v kv]; [exists 0%nat; right; apply unpaired_alone|].
    destruct (IH kv) as [m [H|H]]; [cbn in Hl; lia| |]; exists (S m); [left|right]; now constructor.
Qed.

Lemma kvLoop_paired g t kv n : paired kv n -> forall w, kvLoop g t kv w = (w, map (pair g) (repeat (Errors t KeyValue) n), inl tt).
Proof.
  induction 1 as [|ty d v kv n H IH]; intros w; [reflexivity|].
  cbn [kvLoop]. unfold stringType. change (24 =? 24) with true. cbv iota. unfold bind, tError, emit. rewrite IH. reflexivity.
Qed.
Lemma kvLoop_unpaired g t kv n : unpaired kv n -> forall w, kvLoop g t kv w = (w, map (pair g) (repeat (Errors t KeyValue) n), inr (Panics runtimeError)).
Proof.
  induction 1 as [v kv H|ty d|ty d v kv n H IH]; intros w.
  - destruct v as [|ty k d]; [reflexivity|]. cbn [kvLoop]. destruct (ty =? stringType) eqn:E; [|reflexivity].
    apply Z.eqb_eq in E. exfalso. apply (H k d). rewrite E. reflexivity.
  - reflexivity.
  - cbn [kvLoop]. unfold stringType. change (24 =? 24) with true. cbv iota. unfold bind, tError, emit. rewrite IH. reflexivity.
Qed.

Definition check_runs (t : Z) (must ok : bool) (c : check) (e : list effect) (r : unit + abrupt) : Prop :=
  (holds c /\ e = [] /\ r = inl tt) \/
  (~ holds c /\ exists k, complains t must ok c k /\
     e = k ++ [if must then Fatals t (words ok) else Errors t (words ok)] /\ r = if must then inr Goexit else inl tt) \/
  (~ holds c /\ ok = true /\ trips t must c e /\ r = inr (Panics runtimeError)).

Lemma check_spec g t must ok c w : t <> 0 -> hasT g t w -> ok_check c ->
  exists e r, runCheck g must ok c w = (w, map (pair g) e, r) /\ check_runs t must ok c e r.
Proof.
  intros Ht Hw Hc. pose proof (CurrentT_has g t w Ht Hw) as HT.
  destruct c as [v|v|b|b kv|b kv]; cbn [ok_check] in Hc.
  - pose proof (isNil_spec v Hc) as S.
    destruct must; cbn [runCheck]; unfold mustNil, shouldNil, bind; rewrite HT; unfold assertNil; destruct (isNil v).
    1,3: exists [], (inl tt); split; [reflexivity|]; left; cbn [holds]; tauto.
    + exists ([Errors t OfAssert] ++ [Fatals t (words ok)]), (inr Goexit). split; [destruct ok; reflexivity|].
      right; left. split; [cbn [holds]; intro H; apply S in H; discriminate|]. exists [Errors t OfAssert]. repeat split. constructor.
    + exists ([Errors t OfAssert] ++ [Errors t (words ok)]), (inl tt). split; [destruct ok; reflexivity|].
      right; left. split; [cbn [holds]; intro H; apply S in H; discriminate|]. exists [Errors t OfAssert]. repeat split. constructor.
  - pose proof (isNil_false v Hc) as S.
    destruct must; cbn [runCheck]; unfold mustNotNil, shouldNotNil, bind; rewrite HT; unfold assertNotNil; destruct (isNil v); cbn [negb].
    2,4: exists [], (inl tt); split; [reflexivity|]; left; cbn [holds]; tauto.
    + exists ([Errors t OfAssert] ++ [Fatals t (words ok)]), (inr Goexit). split; [destruct ok; reflexivity|].
      right; left. split; [cbn [holds]; intro H; apply S in H; discriminate|]. exists [Errors t OfAssert]. repeat split. constructor.
    + exists ([Errors t OfAssert] ++ [Errors t (words ok)]), (inl tt). split; [destruct ok; reflexivity|].
      right; left. split; [cbn [holds]; intro H; apply S in H; discriminate|]. exists [Errors t OfAssert]. repeat split. constructor.
  - destruct must; cbn [runCheck]; unfold mustEqual, shouldEqual, bind; rewrite HT; unfold assertEqual; destruct b; cbn [negb].
    1,3: exists [], (inl tt); split; [reflexivity|]; left; cbn [holds]; tauto.
    + exists ([Errors t OfAssert] ++ [Fatals t (words ok)]), (inr Goexit). split; [destruct ok; reflexivity|].
      right; left. split; [cbn [holds]; discriminate|]. exists [Errors t OfAssert]. repeat split. constructor.
    + exists ([Errors t OfAssert] ++ [Errors t (words ok)]), (inl tt). split; [destruct ok; reflexivity|].
      right; left. split; [cbn [holds]; discriminate|]. exists [Errors t OfAssert]. repeat split. constructor.
  - destruct must; cbn [runCheck]; unfold mustAssert, shouldPass; destruct b; cbn [negb].
    1,3: exists [], (inl tt); split; [reflexivity|]; left; cbn [holds]; tauto.
    + unfold bind; rewrite HT. exists ([] ++ [Fatals t (words ok)]), (inr Goexit). split; [destruct ok; reflexivity|].
      right; left. split; [cbn [holds]; discriminate|]. exists []. repeat split. now constructor.
    + unfold bind; rewrite HT. destruct ok; cbn [negb].
      * destruct (kv_cases _ kv (le_n _)) as [n [H|H]].
        -- exists (repeat (Errors t KeyValue) n ++ [Errors t FailedLines]), (inl tt). rewrite (kvLoop_paired _ _ _ _ H). split.
           { cbn. now rewrite map_app. }
           right; left. split; [cbn [holds]; discriminate|]. exists (repeat (Errors t KeyValue) n). repeat split. now apply complains_assert.
        -- exists (repeat (Errors t KeyValue) n), (inr (Panics runtimeError)). rewrite (kvLoop_unpaired _ _ _ _ H). split; [reflexivity|].
           right; right. split; [cbn [holds]; discriminate|]. repeat split. now constructor.
      * exists ([] ++ [Errors t CheckFailed]), (inl tt). split; [reflexivity|].
        right; left. split; [cbn [holds]; discriminate|]. exists []. repeat split. now apply complains_no_caller'.
  - destruct must; cbn [runCheck]; unfold mustPass, shouldPass; destruct b; cbn [negb].
    1,3: exists [], (inl tt); split; [reflexivity|]; left; cbn [holds]; tauto.
    all: unfold bind; rewrite HT; destruct ok; cbn [negb].
    1,3: destruct (kv_cases _ kv (le_n _)) as [n [H|H]].
    2,4: exists (repeat (Errors t KeyValue) n), (inr (Panics runtimeError)); rewrite (kvLoop_unpaired _ _ _ _ H); split; [reflexivity|];
         right; right; (split; [cbn [holds]; discriminate|]); repeat split; now constructor.
    + exists (repeat (Errors t KeyValue) n ++ [Fatals t FailedLines]), (inr Goexit). rewrite (kvLoop_paired _ _ _ _ H). split.
      { cbn. now rewrite map_app. }
      right; left. split; [cbn [holds]; discriminate|]. exists (repeat (Errors t KeyValue) n). repeat split. now apply complains_pass.
    + exists (repeat (Errors t KeyValue) n ++ [Errors t FailedLines]), (inl tt). rewrite (kvLoop_paired _ _ _ _ H). split.
      { cbn. now rewrite map_app. }
      right; left. split; [cbn [holds]; discriminate|]. exists (repeat (Errors t KeyValue) n). repeat split. now apply complains_pass.
    + exists ([] ++ [Fatals t CheckFailed]), (inr Goexit). split; [reflexivity|].
      right; left. split; [cbn [holds]; discriminate|]. exists []. repeat split. now apply complains_no_caller.
    + exists ([] ++ [Errors t CheckFailed]), (inl tt). split; [reflexivity|].
      right; left. split; [cbn [holds]; discriminate|]. exists []. repeat split. now apply complains_no_caller.
Qed.

(** ** Whole tests *)
Definition stmt_runs (t : Z) (s : stmt) (e : list effect) (r : unit + abrupt) : Prop :=
  match r with
  | inl _ => forall l e' r', runs t l e' r' -> runs t (s :: l) (e ++ e') r'
  | inr a => forall l, runs t (s :: l) e (ending_of r)
  end.

Lemma keeps_block g t l : (Forall (fun s => keeps g t (exec g s) (stmt_runs t s)) l) ->
  keeps g t (block g l) (fun e r => runs t l e (ending_of r)).
Proof.
  induction 1 as [|s l H _ IH].
  - eapply keeps_weaken; [|apply keeps_ret]. intros e r [-> ->]. constructor.
  - rewrite block_cons. eapply keeps_weaken; [|apply (keeps_bind g t _ _ _ (fun _ e r => runs t l e (ending_of r)) H); intros _; exact IH].
    intros e r [(x & e1 & e2 & H1 & H2 & ->)|(a & H1 & ->)].
    + apply H1, H2.
    + exact (H1 l).
Qed.

Lemma keeps_spawn g t f : (forall g', good_comp g' (f g')) -> keeps g t (spawn f) (fun e r => e = [] /\ r = inl tt).
Proof.
  intros Hf w w' e r Hg (a & tb & H1 & H2 & H3) E.
  assert (G : good g w w' e) by (eapply good_spawn; eauto).
  assert (Hi : forall h x, In (h, x) e -> nextGoid w <= h /\ r = inl tt).
  { unfold spawn in E. match type of E with context [f ?b ?w0] => destruct (f b w0) as [[w1 e1] r1] eqn:E1; assert (G1 : good b w0 w1 e1) by (eapply Hf; [cbn; lia|exact E1]) end.
    injection E as <- <- <-. destruct G1 as [_ _ _ D]. cbn in D. intros h x H. split; [|reflexivity].
    apply in_app_or in H as [H|[H|[]]]; [apply D in H; lia|injection H as <- _; lia]. }
  assert (Hmap : GetGls g (maps w') = GetGls g (maps w)).
  { unfold spawn in E. match type of E with context [f ?b ?w0] => destruct (f b w0) as [[w1 e1] r1] eqn:E1; assert (G1 : good b w0 w1 e1) by (eapply Hf; [cbn; lia|exact E1]) end.
    injection E as <- <- <-. destruct G1 as [A _ _ _]. cbn in A. apply A; lia. }
  destruct G as [_ [l Bt] C _]. repeat split.
  - lia.
  - exists a, tb. rewrite Hmap, Bt. repeat split; auto. rewrite nth_error_app1; [auto|]. apply nth_error_Some. congruence.
  - apply own_none. intros h x H. apply Hi in H. lia.
  - unfold spawn in E. destruct (f _ _) as [[w1 e1] r1]. injection E as _ _ <-. reflexivity.
Qed.

Lemma keeps_panicCheck g t f report tail :
  (forall w, report w = (w, map (pair g) [fst tail], snd tail)) ->
  forall l, keeps g t f (fun e r => runs t l e (ending_of r)) -> Forall ok_stmt l -> (forall e v, runs t l e (Throws v) -> ok_iface v) ->
  keeps g t (panicCheck g t report f) (fun e r =>
    exists e1 r1, runs t l e1 r1 /\
      ((exists v, r1 = Throws v /\ (~ is_nil v \/ unsafe_nil v) /\ e = e1 /\ r = inl v) \/
       ((forall v, r1 = Throws v -> is_nil v /\ ~ unsafe_nil v) /\ e = e1 ++ [Errors t OfAssert; fst tail] /\
        ((exists a, snd tail = inr a /\ r = inr a) \/ (snd tail = inl tt /\ (r1 = Exits /\ r = inr Goexit \/ r1 <> Exits /\ exists x, r = inl x)))))).
Proof.
  intros Hrep l Hf Hok Hv w w' e r Hg Ht E. unfold panicCheck in E.
  destruct (f w) as [[w1 e1] r1] eqn:E1. destruct (Hf _ _ _ _ Hg Ht E1) as (Hg1 & Ht1 & HR).
  unfold assertNotNil, bind in E.
  assert (Hvalue : (exists v, ending_of r1 = Throws v /\ recovered r1 = v /\ ok_iface v) \/ (recovered r1 = INil /\ forall v, ending_of r1 <> Throws v)).
  { destruct r1 as [[]|[v|]]; cbn; [right; split; [reflexivity|discriminate]| |right; split; [reflexivity|discriminate]].
    left. exists v. repeat split. eapply Hv. exact HR. }
  destruct (isNil (recovered r1)) eqn:En; cbn [negb] in E.
  - assert (Hnil : forall v, ending_of r1 = Throws v -> is_nil v /\ ~ unsafe_nil v).
    { intros v H. destruct Hvalue as [(v' & H' & Hr & Ho)|[_ H']]; [|now apply H' in H].
      rewrite H' in H. injection H as <-. apply isNil_spec; [auto|]. now rewrite <- Hr. }
    cbn [Fail bind emit ret] in E. unfold Fail, bind, emit, ret in E. rewrite Hrep in E. cbn [app map] in E.
    destruct (snd tail) as [[]|a] eqn:Et; injection E as <- <- <-.
    + split; [auto|split; [auto|]]. exists (own g e1), (ending_of r1). split; [auto|]. right. split; [auto|]. split.
      { rewrite own_app. f_equal. cbn. unfold own. cbn. rewrite Z.eqb_refl. reflexivity. }
      right. split; [auto|]. destruct r1 as [[]|[v|]]; cbn; [right|right|left]; split; try discriminate; eauto.
    + split; [auto|split; [auto|]]. exists (own g e1), (ending_of r1). split; [auto|]. right. split; [auto|]. split.
      { rewrite own_app. f_equal. cbn. unfold own. cbn. rewrite Z.eqb_refl. reflexivity. }
      left. eauto.
  - destruct Hvalue as [(v & H & Hr & Ho)|[H _]]; [|rewrite H in En; discriminate En].
    destruct r1 as [[]|[v'|]]; cbn in H; try discriminate H. injection H as ->. cbn [recovered] in *.
    unfold ret in E. injection E as <- <- <-. split; [auto|split; [auto|]]. exists (own g e1), (Throws v). split; [exact HR|].
    left. exists v. rewrite app_nil_r. repeat split; auto. apply isNil_false; [|exact En]. exact Ho.
Qed.

Lemma throws_ok t : forall l e r, runs t l e r -> Forall ok_stmt l -> forall v, r = Throws v -> ok_iface v.
Proof.
  induction 1; intros HF u Hu; inversion HF as [|? ? Hs HF' E1]; subst; try discriminate; eauto.
  - injection Hu as <-. cbn. unfold dynamic_kind, KPtr. lia.
  - injection Hu as <-. inversion Hs. auto.
Qed.

Lemma keeps_exec g t s : t <> 0 -> flat s -> ok_stmt s -> keeps g t (exec g s) (stmt_runs t s).
Proof.
  intros Hn. induction s as [must ok c|must ok f IH|n|v| | |t' f IH|f IH|b f IH|t' f IH] using stmt_ind'; intros Hf Ho;
    inversion Hf; inversion Ho; subst.
  - intros w w' e r Hg Ht E. cbn [exec] in E.
    match goal with H : ok_check c |- _ => destruct (check_spec g t must ok c w Hn Ht H) as (e0 & r0 & E0 & HR) end.
    rewrite E0 in E. injection E as <- <- <-. split; [auto|split; [auto|]]. rewrite own_map.
    destruct HR as [(H & -> & ->)|[(H & k & Hk & -> & ->)|(H & -> & Hk & ->)]]; cbn.
    + intros. now constructor.
    + destruct must; cbn; intros.
      * now apply runs_must.
      * rewrite <- app_assoc. cbn. now apply runs_should.
    + intros. now apply runs_trip.
  - assert (Hb : keeps g t (block g f) (fun e r => runs t f e (ending_of r))).
    { apply keeps_block. rewrite Forall_forall in *. intros s Hs. apply IH; auto. }
    assert (Hv : forall e v, runs t f e (Throws v) -> ok_iface v).
    { intros e v H. eapply throws_ok; eauto. }
    rewrite exec_panic. destruct ok.
    + destruct must.
      * pose proof (keeps_panicCheck g t (block g f) (tFatal g t FailedLines) (Fatals t FailedLines, inr Goexit) ltac:(intros; reflexivity) f Hb ltac:(assumption) Hv) as K.
        intros w w' e r Hg Ht E. unfold mustPanic in E. unfold bind in E at 1 2. rewrite (CurrentT_has _ _ _ Hn Ht) in E. cbn [negb] in E.
        destruct (panicCheck _ _ _ _ w) as [[w1 e1] r1] eqn:E1. destruct (K _ _ _ _ Hg Ht E1) as (Hg1 & Ht1 & e2 & r2 & HR & D).
        destruct r1 as [x|a]; cbn in E; injection E as <- <- <-; split; auto; split; auto.
        -- rewrite app_nil_r. destruct D as [(v & -> & Hnv & -> & Hx)|(_ & _ & [(a & _ & Hx)|(Hx & _)])]; try discriminate. cbn. intros. eapply runs_panic; eauto.
        -- destruct D as [(v & _ & _ & _ & Hx)|(Hnv & -> & [(a' & Ha & Hx)|(Hx & _)])]; try discriminate.
           injection Ha as <-. injection Hx as ->. cbn. intros. eapply runs_panic_must; eauto.
      * pose proof (keeps_panicCheck g t (block g f) (tError g t FailedLines) (Errors t FailedLines, inl tt) ltac:(intros; reflexivity) f Hb ltac:(assumption) Hv) as K.
        intros w w' e r Hg Ht E. unfold shouldPanic in E. unfold bind in E at 1 2. rewrite (CurrentT_has _ _ _ Hn Ht) in E. cbn [negb] in E.
        destruct (panicCheck _ _ _ _ w) as [[w1 e1] r1] eqn:E1. destruct (K _ _ _ _ Hg Ht E1) as (Hg1 & Ht1 & e2 & r2 & HR & D).
        destruct r1 as [x|a]; cbn in E; injection E as <- <- <-; split; auto; split; auto.
        -- rewrite app_nil_r. destruct D as [(v & -> & Hnv & -> & Hx)|(Hnv & -> & [(a & Ha & Hx)|(_ & [(_ & Hx)|(Hne & y & Hx)])])]; try discriminate.
           ++ cbn. intros. eapply runs_panic; eauto.
           ++ cbn. intros. rewrite <- app_assoc. cbn. eapply runs_panic_should; eauto.
        -- destruct D as [(v & _ & _ & _ & Hx)|(Hnv & -> & [(a' & Ha & Hx)|(_ & [(-> & Hx)|(Hne & y & Hx)])])]; try discriminate.
           injection Hx as ->. cbn. intros. now apply runs_panic_exit.
    + destruct must; intros w w' e r Hg Ht E; [unfold mustPanic in E|unfold shouldPanic in E]; unfold bind in E at 1 2;
        rewrite (CurrentT_has _ _ _ Hn Ht) in E; cbn in E; injection E as <- <- <-; split; auto; split; auto; unfold own; cbn; rewrite Z.eqb_refl; cbn; intros.
      * apply runs_panic_must_no_caller.
      * now apply runs_panic_should_no_caller.
  - intros w w' e r Hg Ht E. cbn in E. injection E as <- <- <-. repeat split; auto. rewrite own_self. cbn. intros. now constructor.
  - intros w w' e r Hg Ht E. cbn in E. injection E as <- <- <-. repeat split; auto. cbn. intros. constructor.
  - intros w w' e r Hg Ht E. cbn in E. injection E as <- <- <-. repeat split; auto. cbn. intros. constructor.
  - intros w w' e r Hg Ht E. cbn [exec] in E. unfold Skip, bind in E. rewrite (CurrentT_has _ _ _ Hn Ht) in E. cbn in E. injection E as <- <- <-. repeat split; auto.
    rewrite own_self. cbn. intros. constructor.
  - rewrite exec_go. destruct b.
    + intros w w' e r Hg Ht E.
      destruct (keeps_spawn g t (fun g' => withTable g' (glsCopy w (GetGls g (maps w))) (block g' f)) ltac:(intros; apply good_withTable, good_block) _ _ _ _ Hg Ht E) as (? & ? & -> & ->).
      repeat split; auto. cbn. intros. now constructor.
    + eapply keeps_weaken; [|apply keeps_spawn; intros; apply good_block].
      intros e r [-> ->]. cbn. intros. now constructor.
  - rewrite exec_run. eapply keeps_weaken; [|apply keeps_spawn; intros; apply good_Case, good_block].
    intros e r [-> ->]. cbn. intros. now constructor.
Qed.

Lemma keeps_flat g t l : t <> 0 -> Forall flat l -> Forall ok_stmt l -> keeps g t (block g l) (fun e r => runs t l e (ending_of r)).
Proof.
  intros Hn Hf Ho. apply keeps_block. rewrite Forall_forall in *. intros. apply keeps_exec; auto.
Qed.

Lemma withTable_spec g t tb l w w' e r :
  t <> 0 -> tb testingTType = Some t -> Forall flat l -> Forall ok_stmt l -> g < nextGoid w ->
  withTable g tb (block g l) w = (w', e, r) ->
  runs t l (own g e) (ending_of r) /\ GetGls g (maps w') = None.
Proof.
  intros Hn Htb Hf Ho Hg E. unfold withTable in E.
  match type of E with context [block g l ?w0] => destruct (block g l w0) as [[w1 e1] r1] eqn:E1;
    assert (H : hasT g t w0); [|destruct (keeps_flat g t l Hn Hf Ho w0 _ _ _ Hg H E1) as (_ & _ & HR)] end.
  { exists (List.length (tables w)), tb. cbn. rewrite GetGls_reset, Z.eqb_refl. repeat split; auto.
    rewrite nth_error_app2, Nat.sub_diag by lia. reflexivity. }
  injection E as <- <- <-. split; [exact HR|]. cbn. rewrite GetGls_delete, Z.eqb_refl. reflexivity.
Qed.

Lemma Case_spec g t l w w' e r :
  t <> 0 -> Forall flat l -> Forall ok_stmt l -> g < nextGoid w -> Case g (block g l) t w = (w', e, r) ->
  runs t l (own g e) (ending_of r) /\ GetGls g (maps w') = None.
Proof. intros Hn Hf Ho Hg E. rewrite Case_withTable in E. eapply withTable_spec; [exact Hn| |exact Hf|exact Ho|exact Hg|exact E]. reflexivity. Qed.

Lemma own_end g e x : own g (e ++ [(g, x)]) = own g e ++ [x].
Proof. now rewrite own_app, own_self. Qed.

Definition last_words {A} (r : A + abrupt) : effect := match r with inr (Panics v) => Crashes v | _ => Ends end.

(** the child of a goroutine that has t *)
Lemma go_spec g t f w w' e r : t <> 0 -> Forall flat f -> Forall ok_stmt f -> hasT g t w ->
  exec g (SGo true f) w = (w', e, r) ->
  exists e' (r' : unit + abrupt), runs t f e' (ending_of r') /\ own (nextGoid w) e = e' ++ [last_words r'] /\ r = inl tt.
Proof.
  intros Hn Hf Ho (a & tb & H1 & H2 & H3) E. rewrite exec_go in E. cbv beta zeta in E. unfold spawn in E. cbv beta zeta in E.
  destruct (withTable _ _ _ _) as [[w1 e1] r1] eqn:E1. injection E as <- <- <-.
  apply (withTable_spec _ t) in E1 as [HR _]; auto; [|unfold glsCopy, copyTable; rewrite H1, (nth_error_nth _ _ _ H2), H3|cbn; lia].
  - exists (own (nextGoid w) e1), r1. rewrite own_end. auto.
  - unfold copyOf. destruct (t =? nil_value); reflexivity.
Qed.
Lemma run_spec g t f w w' e r : t <> 0 -> Forall flat f -> Forall ok_stmt f ->
  exec g (SRun t f) w = (w', e, r) ->
  exists e' (r' : unit + abrupt), runs t f e' (ending_of r') /\ own (nextGoid w) e = e' ++ [last_words r'] /\ r = inl tt.
Proof.
  intros Hn Hf Ho E. rewrite exec_run in E. unfold spawn in E. cbv beta zeta in E.
  destruct (Case _ _ _ _) as [[w1 e1] r1] eqn:E1. injection E as <- <- <-.
  apply Case_spec in E1 as [HR _]; auto; [|cbn; lia].
  exists (own (nextGoid w) e1), r1. rewrite own_end. auto.
Qed.

(** no t *)
Lemma CurrentT_none g w : GetGls g (maps w) = None -> CurrentT g w = (w, [], inr (Panics notStarted)).
Proof. intros H. unfold CurrentT. now rewrite H. Qed.
Lemma check_none g must ok c w : needs_t c -> GetGls g (maps w) = None -> runCheck g must ok c w = (w, [], inr (Panics notStarted)).
Proof.
  intros Hc H. pose proof (CurrentT_none g w H) as HT.
  destruct c as [v|v|b|b kv|b kv]; cbn in Hc; try subst b; destruct must; cbn [runCheck];
    unfold mustNil, shouldNil, mustNotNil, shouldNotNil, mustEqual, shouldEqual, mustAssert, mustPass, shouldPass, bind; cbn [negb]; rewrite HT; reflexivity.
Qed.

(** ** Sequences of checks and steps *)
Lemma steps_app e e' : steps_of (e ++ e') = steps_of e ++ steps_of e'.
Proof. unfold steps_of. apply flat_map_app. Qed.
Lemma steps_complains t must ok c k : complains t must ok c k -> steps_of k = [].
Proof. intros H. inversion H; subst; try reflexivity; clear; induction n; cbn; auto. Qed.
Lemma complains_fails t must ok c k e x : complains t must ok c k -> fails t (k ++ Errors t x :: e) /\ fails t (k ++ Fatals t x :: e).
Proof. intros _. split; exists x; [left|right]; apply in_or_app; right; left; reflexivity. Qed.
Lemma paired_unpaired kv n m : paired kv n -> unpaired kv m -> False.
Proof.
  intros H. revert m. induction H as [|ty d v kv n H IH]; intros m U; inversion U; subst; eauto.
  match goal with H : forall ty d, IVal _ _ _ <> _ |- _ => exact (H _ _ eq_refl) end.
Qed.
Lemma complains_trips t t' must c k k' : complains t must true c k -> trips t' must c k' -> False.
Proof. intros H H'. inversion H; inversion H'; subst; try congruence; try discriminate; try (injection H'; intros; subst).
  all: match goal with H : CAssert _ _ = CAssert _ _ |- _ => injection H as -> -> | H : CPass _ _ = CPass _ _ |- _ => injection H as -> -> | _ => idtac end; eauto using paired_unpaired.
Qed.

Lemma outcome_spec t l its e r : Forall2 item_of l its -> runs t l e r ->
  steps_of e = fst (fst (outcome its)) /\
  (fails t e <-> snd (fst (outcome its)) = true) /\
  r = (if snd (outcome its) then Exits else Returns).
Proof.
  intros HF. revert e r. induction HF as [|s i l its Hi HF IH]; intros e r HR.
  - inversion HR; subst. cbn. repeat split; try discriminate; auto. intros (x & [[]|[]]).
  - inversion Hi; subst; inversion HR; subst; try contradiction.
    + cbn. apply IH. auto.
    + cbn. match goal with H : runs t l _ _ |- _ => destruct (IH _ _ H) as (A & B & C) end.
      destruct (outcome its) as [[st f] b]. cbn in *. rewrite steps_app.
      match goal with H : complains t _ _ _ _ |- _ => rewrite (steps_complains _ _ _ _ _ H) end. cbn. repeat split; auto.
      intros _. match goal with H : complains t _ _ _ _ |- _ => exact (proj1 (complains_fails _ _ _ _ _ _ _ H)) end.
    + cbn. rewrite steps_app. match goal with H : complains t _ _ _ _ |- _ => rewrite (steps_complains _ _ _ _ _ H) end. cbn. repeat split; auto.
      intros _. match goal with H : complains t _ _ _ _ |- _ => exact (proj2 (complains_fails _ _ _ _ _ _ _ H)) end.
    + exfalso. match goal with H : complains _ _ true _ _, H' : trips _ _ _ _ |- _ => exact (complains_trips _ _ _ _ _ _ H H') end.
    + match goal with H : runs t l _ _ |- _ => destruct (IH _ _ H) as (A & B & C) end. cbn.
      destruct (outcome its) as [[st f] b]. cbn in *. split; [unfold steps_of in A |- *; cbn; now rewrite A|]. split; [|auto]. rewrite <- B.
      split; intros (x & [D|D]); exists x; try (destruct D as [D|D]; [discriminate D|]); cbn; auto.
Qed.

(** ** Panic *)
Lemma mustPanic_spec g t f w w1 e r : t <> 0 -> hasT g t w -> f w = (w1, e, r) ->
  mustPanic g true f w =
    if isNil (recovered r) then (w1, e ++ [(g, Errors t OfAssert); (g, Fatals t FailedLines)], inr Goexit)
    else (w1, e, inl (recovered r)).
Proof.
  intros Hn Ht E. unfold mustPanic, bind at 1. rewrite (CurrentT_has _ _ _ Hn Ht). cbn [negb]. unfold panicCheck. rewrite E.
  unfold assertNotNil. destruct (isNil (recovered r)) eqn:En; cbn.
  - reflexivity.
  - rewrite app_nil_r. destruct r as [[]|[v|]]; cbn in *; try discriminate En. reflexivity.
Qed.
Lemma shouldPanic_spec g t f w w1 e r : t <> 0 -> hasT g t w -> f w = (w1, e, r) ->
  shouldPanic g true f w =
    if isNil (recovered r) then (w1, e ++ [(g, Errors t OfAssert); (g, Errors t FailedLines)], match r with inr Goexit => inr Goexit | _ => inl (recovered r) end)
    else (w1, e, inl (recovered r)).
Proof.
  intros Hn Ht E. unfold shouldPanic, bind at 1. rewrite (CurrentT_has _ _ _ Hn Ht). cbn [negb]. unfold panicCheck. rewrite E.
  unfold assertNotNil. destruct (isNil (recovered r)) eqn:En; cbn.
  - reflexivity.
  - rewrite app_nil_r. destruct r as [[]|[v|]]; cbn in *; try discriminate En. reflexivity.
Qed.

(** ** Call *)
Section CallProofs.
  Variable assignable : Z -> Z -> bool.
  Variable implementsError : Z -> bool.
  Variable kindOf : Z -> Z.
  Variable elemOf : Z -> Z.

  Definition wf_iface (v : iface) : Prop := match v with INil => True | IVal ty k _ => k = kindOf ty end.
  Definition valid (v : rvalue) : Prop := v <> RInvalid.

  Definition argOf (p : Z * iface) : rvalue := match snd p with INil => zeroOf kindOf (fst p) | v => ValueOf v end.

  Lemma mustArgs_fixed f a1 a2 : forall ps i, (forall j, nth_error (params f) (i + j) = nth_error ps j \/ (List.length ps <= j)%nat) ->
    List.length a1 = List.length ps ->
    mustArgs kindOf f i (a1 ++ a2) = option_map (app (map argOf (combine ps a1))) (mustArgs kindOf f (i + List.length a1) a2).
  Proof.
    induction a1 as [|a a1 IH]; intros ps i Hp Hl; destruct ps as [|p ps]; cbn in Hl; try lia.
    - cbn. rewrite Nat.add_0_r. destruct (mustArgs _ _ _ _); reflexivity.
    - cbn [app mustArgs combine map List.length].
      assert (IH' := IH ps (S i)). rewrite IH'; [|intros j; specialize (Hp (S j)); cbn in Hp; rewrite <- plus_n_Sm in Hp; destruct Hp as [Hp|Hp]; [left; exact Hp|right; lia]|lia].
      replace (i + S (List.length a1))%nat with (S i + List.length a1)%nat by lia.
      destruct a as [|ty k d].
      + destruct (Hp 0%nat) as [H|H]; [|cbn in H; lia]. rewrite Nat.add_0_r in H. cbn [nth_error] in H.
        rewrite H. destruct (mustArgs _ _ _ a2); reflexivity.
      + destruct (mustArgs _ _ _ a2); reflexivity.
  Qed.
  Lemma mustArgs_values f a2 : forall i, Forall (fun v => v <> INil) a2 -> mustArgs kindOf f i a2 = Some (map ValueOf a2).
  Proof.
    induction a2 as [|a a2 IH]; intros i HF; [reflexivity|]. inversion HF; subst. cbn [mustArgs map].
    destruct a as [|ty k d]; [congruence|]. rewrite IH by auto. reflexivity.
  Qed.

  Hypothesis refl : forall ty, assignable ty ty = true.

  Lemma zeroOf_type p : typeOf (zeroOf kindOf p) = p.
  Proof. unfold zeroOf. destruct (kindOf p =? KInterface); reflexivity. Qed.
  Lemma zeroOf_valid p : zeroOf kindOf p <> RInvalid.
  Proof. unfold zeroOf. destruct (kindOf p =? KInterface); discriminate. Qed.

  Lemma given_spec pty v x : wf_iface v -> v <> INil ->
    (given assignable kindOf pty v x <-> assignable (typeOf (ValueOf v)) pty = true /\ x = assignTo kindOf pty (ValueOf v)).
  Proof.
    intros Hw Hn. destruct v as [|ty k d]; [congruence|]. cbn [wf_iface ValueOf typeOf] in *. subst k. unfold assignTo, KInterface. cbn [Interface]. split.
    - intros H. inversion H; subst.
      + match goal with H : kindOf pty = 20 |- _ => rewrite H end. auto.
      + match goal with H : kindOf pty <> 20 |- _ => apply Z.eqb_neq in H; rewrite H end. auto.
    - intros [H ->]. destruct (kindOf pty =? 20) eqn:E.
      + apply Z.eqb_eq in E. now constructor.
      + apply Z.eqb_neq in E. now constructor.
  Qed.
  Lemma given_nil pty x : ~ given assignable kindOf pty INil x.
  Proof. intros H. inversion H. Qed.

  Lemma given_zero_spec pty v x : wf_iface v ->
    (given_or_zero assignable kindOf pty v x <-> assignable (typeOf (argOf (pty, v))) pty = true /\ x = assignTo kindOf pty (argOf (pty, v))).
  Proof.
    intros Hw. unfold given_or_zero, argOf. cbn [fst snd]. destruct v as [|ty k d].
    - rewrite zeroOf_type, refl. unfold zero, assignTo, zeroOf, KInterface. destruct (kindOf pty =? 20) eqn:E.
      + apply Z.eqb_eq in E. cbn. split; [intros [H|[_ [[_ H]|[H _]]]]; [now apply given_nil in H|auto|contradiction]|]. intros [_ ->]. auto.
      + apply Z.eqb_neq in E. cbn. split; [intros [H|[_ [[H _]|[_ H]]]]; [now apply given_nil in H|contradiction|auto]|]. intros [_ ->]. auto.
    - rewrite <- given_spec by (auto; discriminate). split; [intros [H|[H _]]; [auto|discriminate]|auto].
  Qed.

  Lemma assign_spec (arg : Z * iface -> rvalue) (R : Z -> iface -> rvalue -> Prop) : forall ps a1 fixed, List.length a1 = List.length ps ->
    Forall (fun p => forall x, R (fst p) (snd p) x <-> assignable (typeOf (arg p)) (fst p) = true /\ x = assignTo kindOf (fst p) (arg p)) (combine ps a1) ->
    (Forall2 (fun p x => R (fst p) (snd p) x) (combine ps a1) fixed <-> assignAll assignable kindOf ps (map arg (combine ps a1)) = Some fixed).
  Proof.
    induction ps as [|p ps IH]; intros a1 fixed Hl HF; destruct a1 as [|a a1]; cbn in Hl; try lia.
    - cbn. split; intros H; [inversion H; reflexivity|injection H as <-; constructor].
    - cbn [combine map] in *. inversion HF as [|? ? H1 H2]; subst. cbn [fst snd] in H1. cbn [assignAll].
      split; intros H.
      + inversion H as [|? x ? fx Hx Hf]; subst. cbn [fst snd] in Hx. apply H1 in Hx as [Ha ->]. rewrite Ha.
        apply IH in Hf; auto. rewrite Hf. reflexivity.
      + destruct (assignable (typeOf (arg (p, a))) p) eqn:Ha; [|discriminate].
        destruct (assignAll assignable kindOf ps (map arg (combine ps a1))) as [fx|] eqn:Hf; [|discriminate].
        injection H as <-. constructor; [cbn [fst snd]; apply H1; auto|]. apply IH; auto.
  Qed.

  Lemma combine_repeat {A B} (p : A) (l : list B) : combine (repeat p (List.length l)) l = map (pair p) l.
  Proof. induction l as [|x l IH]; [reflexivity|]. cbn. now rewrite IH. Qed.
  Lemma Forall2_map_l {A B C} (f : A -> B) (R : B -> C -> Prop) l l' : Forall2 R (map f l) l' <-> Forall2 (fun x y => R (f x) y) l l'.
  Proof.
    revert l'. induction l as [|x l IH]; intros l'; split; intros H; inversion H; subst; constructor; auto; apply IH; auto.
  Qed.

  Lemma extra_spec elem rest extra : Forall wf_iface rest -> Forall (fun v => v <> INil) rest ->
    (Forall2 (given assignable kindOf elem) rest extra <-> assignAll assignable kindOf (repeat elem (List.length rest)) (map ValueOf rest) = Some extra).
  Proof.
    intros Hw Hn. pose proof (assign_spec (fun p => ValueOf (snd p)) (given assignable kindOf) (repeat elem (List.length rest)) rest extra) as S.
    rewrite repeat_length, combine_repeat, map_map in S. cbn [snd] in S. rewrite <- S; [|reflexivity|].
    - rewrite Forall2_map_l. reflexivity.
    - rewrite Forall_forall in *. intros p Hp. apply in_map_iff in Hp as (v & <- & Hv). cbn [fst snd]. intros. apply given_spec; auto.
  Qed.

  Definition wf_func (f : func) : Prop := variadic f = true -> params f <> [].

  (** reflect's Call with n fixed arguments *)
  Lemma reflectCall_spec f fx rest : let n := if variadic f then (List.length (params f) - 1)%nat else List.length (params f) in
    List.length fx = n -> (variadic f = false -> rest = []) -> Forall valid (fx ++ rest) ->
    reflectCall assignable kindOf elemOf f (fx ++ rest) =
    match assignAll assignable kindOf (firstn n (params f)) fx with
    | None => abort (Panics runtimeError)
    | Some fixed => match assignAll assignable kindOf (repeat (elemOf (nth n (params f) 0)) (List.length rest)) rest with
                    | None => abort (Panics runtimeError)
                    | Some extra => body f fixed extra
                    end
    end.
  Proof.
    intros n Hn Hr Hv. unfold reflectCall. fold n.
    assert (E1 : (List.length (fx ++ rest) <? n)%nat = false) by (apply Nat.ltb_ge; rewrite app_length; lia). rewrite E1.
    assert (E2 : negb (variadic f) && (n <? List.length (fx ++ rest))%nat = false).
    { destruct (variadic f); [reflexivity|]. cbn. rewrite (Hr eq_refl), app_nil_r. apply Nat.ltb_ge. lia. }
    rewrite E2.
    assert (E3 : existsb (fun v => match v with RInvalid => true | _ => false end) (fx ++ rest) = false).
    { destruct (existsb _ _) eqn:E; [|reflexivity]. apply existsb_exists in E as (v & Hi & Hx). rewrite Forall_forall in Hv.
      apply Hv in Hi. unfold valid in Hi. destruct v; congruence. }
    rewrite E3. rewrite firstn_app, skipn_app, Hn, Nat.sub_diag. cbn [firstn skipn]. rewrite app_nil_r.
    rewrite <- Hn at 2. rewrite firstn_all. replace (skipn n fx) with (@nil rvalue) by (rewrite skipn_all2; [reflexivity|lia]).
    cbn [app]. reflexivity.
  Qed.

  Lemma reflectCall_short f args : let n := if variadic f then (List.length (params f) - 1)%nat else List.length (params f) in
    (List.length args < n)%nat \/ (variadic f = false /\ (n < List.length args)%nat) ->
    reflectCall assignable kindOf elemOf f args = abort (Panics runtimeError).
  Proof.
    cbv zeta. intros H. unfold reflectCall. destruct H as [H|[Hv H]].
    - apply Nat.ltb_lt in H. now rewrite H.
    - rewrite Hv in *. destruct (List.length args <? List.length (params f))%nat; [reflexivity|].
      apply Nat.ltb_lt in H. cbn [negb andb]. now rewrite H.
  Qed.
  Lemma reflectCall_invalid f args : In RInvalid args -> reflectCall assignable kindOf elemOf f args = abort (Panics runtimeError).
  Proof.
    intros H. unfold reflectCall.
    destruct (List.length args <? _)%nat; [reflexivity|]. destruct (negb _ && _); [reflexivity|].
    replace (existsb _ args) with true; [reflexivity|]. symmetry. apply existsb_exists. exists RInvalid. auto.
  Qed.

  Definition fixedN (f : func) : nat := if variadic f then (List.length (params f) - 1)%nat else List.length (params f).

  (** what sees says in terms of the split of the arguments *)
  Lemma sees_split R f args fixed extra : wf_func f ->
    (sees assignable kindOf elemOf R f args fixed extra <->
     exists a1 a2, args = a1 ++ a2 /\ List.length a1 = fixedN f /\ (variadic f = false -> a2 = []) /\
       Forall2 (fun p x => R (fst p) (snd p) x) (combine (firstn (fixedN f) (params f)) a1) fixed /\
       Forall2 (given assignable kindOf (elemOf (nth (fixedN f) (params f) 0))) a2 extra).
  Proof.
    intros Hw. unfold sees, fixedN. destruct (variadic f) eqn:V.
    - specialize (Hw V). split.
      + intros (ps & pv & a1 & a2 & Hp & -> & Hl & HF & HE). exists a1, a2. rewrite Hp in *. rewrite app_length. cbn [List.length].
        replace (List.length ps + 1 - 1)%nat with (List.length ps) by lia.
        rewrite firstn_app, Nat.sub_diag, firstn_all. cbn [firstn]. rewrite app_nil_r, app_nth2, Nat.sub_diag by lia. cbn [nth].
        repeat split; auto. discriminate.
      + intros (a1 & a2 & -> & Hl & _ & HF & HE).
        destruct (exists_last Hw) as (ps & pv & Hp). exists ps, pv, a1, a2. rewrite Hp in *. rewrite app_length in *. cbn [List.length] in *.
        replace (List.length ps + 1 - 1)%nat with (List.length ps) in * by lia.
        rewrite firstn_app, Nat.sub_diag, firstn_all in HF. cbn [firstn] in HF. rewrite app_nil_r in HF. rewrite app_nth2, Nat.sub_diag in HE by lia. cbn [nth] in HE.
        auto.
    - split.
      + intros (Hl & HF & ->). exists args, []. rewrite app_nil_r, firstn_all. repeat split; auto.
      + intros (a1 & a2 & -> & Hl & Ha & HF & HE). rewrite (Ha eq_refl) in *. inversion HE; subst. rewrite app_nil_r, firstn_all in *. auto.
  Qed.

  Lemma call_spec (arg : Z * iface -> rvalue) R f args vals : wf_func f -> Forall wf_iface args ->
    (forall p, arg p = ValueOf (snd p) \/ snd p = INil) ->
    (forall p x, wf_iface (snd p) -> (R (fst p) (snd p) x <-> assignable (typeOf (arg p)) (fst p) = true /\ x = assignTo kindOf (fst p) (arg p))) ->
    (fixedN f <= List.length args)%nat -> (variadic f = false -> List.length args = fixedN f) ->
    vals = map arg (combine (firstn (fixedN f) (params f)) (firstn (fixedN f) args)) ++ map ValueOf (skipn (fixedN f) args) ->
    Forall valid vals -> Forall (fun v => v <> INil) (skipn (fixedN f) args) ->
    (forall fixed extra, sees assignable kindOf elemOf R f args fixed extra -> reflectCall assignable kindOf elemOf f vals = body f fixed extra) /\
    ((forall fixed extra, ~ sees assignable kindOf elemOf R f args fixed extra) -> reflectCall assignable kindOf elemOf f vals = abort (Panics runtimeError)).
  Proof.
    intros Hw Hwa Harg HR Hlen Hnv -> Hvalid Hnn.
    assert (Hpl : List.length (firstn (fixedN f) (params f)) = fixedN f).
    { apply firstn_length_le. unfold fixedN. destruct (variadic f); lia. }
    assert (Hal : List.length (firstn (fixedN f) args) = fixedN f) by (apply firstn_length_le; lia).
    assert (Hrest : variadic f = false -> map ValueOf (skipn (fixedN f) args) = []).
    { intros V. rewrite skipn_all2; [reflexivity|]. rewrite (Hnv V). lia. }
    assert (E := reflectCall_spec f (map arg (combine (firstn (fixedN f) (params f)) (firstn (fixedN f) args))) (map ValueOf (skipn (fixedN f) args))).
    cbv zeta in E. fold (fixedN f) in E. rewrite E; auto; [|rewrite map_length, combine_length; lia]. clear E. rewrite map_length.
    assert (Hwf1 : Forall wf_iface (firstn (fixedN f) args)).
    { rewrite Forall_forall in *. intros v Hv. apply Hwa. rewrite <- (firstn_skipn (fixedN f) args). apply in_or_app. auto. }
    assert (Hwf2 : Forall wf_iface (skipn (fixedN f) args)).
    { rewrite Forall_forall in *. intros v Hv. apply Hwa. rewrite <- (firstn_skipn (fixedN f) args). apply in_or_app. auto. }
    assert (S1 : forall fixed, Forall2 (fun p x => R (fst p) (snd p) x) (combine (firstn (fixedN f) (params f)) (firstn (fixedN f) args)) fixed <->
      assignAll assignable kindOf (firstn (fixedN f) (params f)) (map arg (combine (firstn (fixedN f) (params f)) (firstn (fixedN f) args))) = Some fixed).
    { intros fixed. apply assign_spec; [lia|]. rewrite Forall_forall. intros p Hp x. apply HR.
      destruct p as [p v]. apply in_combine_r in Hp. rewrite Forall_forall in Hwf1. apply Hwf1. exact Hp. }
    assert (S2 := fun extra => extra_spec (elemOf (nth (fixedN f) (params f) 0)) (skipn (fixedN f) args) extra Hwf2 Hnn).
    assert (U : forall fixed extra, sees assignable kindOf elemOf R f args fixed extra <->
      assignAll assignable kindOf (firstn (fixedN f) (params f)) (map arg (combine (firstn (fixedN f) (params f)) (firstn (fixedN f) args))) = Some fixed /\
      assignAll assignable kindOf (repeat (elemOf (nth (fixedN f) (params f) 0)) (List.length (skipn (fixedN f) args))) (map ValueOf (skipn (fixedN f) args)) = Some extra).
    { intros fixed extra. rewrite sees_split by auto. rewrite <- S1, <- S2. split.
      - intros (a1 & a2 & Ha & Hl & _ & H1 & H2). rewrite Ha in *. rewrite firstn_app, skipn_app, Hl, Nat.sub_diag. cbn [firstn skipn].
        rewrite app_nil_r, <- Hl, firstn_all, skipn_all. cbn [app]. rewrite Hl. auto.
      - intros [H1 H2]. exists (firstn (fixedN f) args), (skipn (fixedN f) args). rewrite firstn_skipn. repeat split; auto.
        intros V. apply Hrest in V. destruct (skipn _ _); [reflexivity|discriminate]. }
    split.
    - intros fixed extra H. apply U in H as [H1 H2]. rewrite H1, H2. reflexivity.
    - intros H. destruct (assignAll _ _ (firstn _ _) _) as [fixed|] eqn:E1; [|reflexivity].
      destruct (assignAll _ _ (repeat _ _) _) as [extra|] eqn:E2; [|reflexivity].
      exfalso. apply (H fixed extra). apply U. auto.
  Qed.
End CallProofs.

Section CallTop.
  Variable assignable : Z -> Z -> bool.
  Variable implementsError : Z -> bool.
  Variable kindOf : Z -> Z.
  Variable elemOf : Z -> Z.
  Hypothesis refl : forall ty, assignable ty ty = true.

  Lemma sees_length R f args fixed extra : wf_func f -> sees assignable kindOf elemOf R f args fixed extra ->
    (fixedN f <= List.length args)%nat /\ (variadic f = false -> List.length args = fixedN f).
  Proof.
    intros Hw H. apply sees_split in H as (a1 & a2 & -> & Hl & Ha & _ & _); [|auto]. rewrite app_length. split; [lia|].
    intros V. rewrite (Ha V). cbn. lia.
  Qed.

  Definition no_variadic_nil (f : func) (args : list iface) : Prop := Forall (fun v => v <> INil) (skipn (fixedN f) args).

  Lemma fixed_params f : forall j, nth_error (params f) (0 + j) = nth_error (firstn (fixedN f) (params f)) j \/ (List.length (firstn (fixedN f) (params f)) <= j)%nat.
  Proof.
    intros j. destruct (Nat.lt_ge_cases j (List.length (firstn (fixedN f) (params f)))) as [H|H]; [left|right; lia].
    cbn. rewrite <- (firstn_skipn (fixedN f) (params f)) at 1. now rewrite nth_error_app1.
  Qed.

  Lemma mustCall_spec g ok f args : wf_func f -> Forall (wf_iface kindOf) args -> (variadic f = true -> no_variadic_nil f args) ->
    (forall fixed extra, sees assignable kindOf elemOf (given_or_zero assignable kindOf) f args fixed extra ->
       forall w, mustCall assignable implementsError kindOf elemOf g ok f args w =
       bind (body f fixed extra) (callResult implementsError kindOf g ok (fun t x => tFatal g t x)) w) /\
    ((forall fixed extra, ~ sees assignable kindOf elemOf (given_or_zero assignable kindOf) f args fixed extra) ->
       forall w, mustCall assignable implementsError kindOf elemOf g ok f args w = (w, [], inr (Panics runtimeError))).
  Proof.
    intros Hw Hwa Hnv. unfold mustCall.
    destruct (Nat.lt_ge_cases (List.length args) (fixedN f)) as [Hl|Hl].
    { split; [intros fixed extra H; apply sees_length in H; [lia|auto]|]. intros _ w.
      destruct (mustArgs kindOf f 0 args) as [vals|] eqn:E; [|reflexivity].
      assert (Hvl : List.length vals = List.length args).
      { clear -E. revert vals E. generalize 0%nat. induction args as [|a args IH]; intros i vals E; cbn in E; [injection E as <-; reflexivity|].
        destruct a; [destruct (nth_error _ _); [|discriminate]|]; destruct (mustArgs kindOf f (S i) args) eqn:E2; cbn in E; try discriminate; injection E as <-; cbn; f_equal; eauto. }
      unfold bind. rewrite reflectCall_short; [reflexivity|]. left. fold (fixedN f). lia. }
    destruct (variadic f) eqn:V.
    - specialize (Hnv eq_refl). unfold no_variadic_nil in Hnv.
      assert (E : mustArgs kindOf f 0 args = Some (map (argOf kindOf) (combine (firstn (fixedN f) (params f)) (firstn (fixedN f) args)) ++ map ValueOf (skipn (fixedN f) args))).
      { rewrite <- (firstn_skipn (fixedN f) args) at 1. rewrite (mustArgs_fixed kindOf f _ _ (firstn (fixedN f) (params f)) 0 (fixed_params f)).
        - rewrite mustArgs_values by auto. reflexivity.
        - rewrite !firstn_length_le; auto. unfold fixedN. destruct (variadic f); lia. }
      rewrite E.
      destruct (call_spec assignable kindOf elemOf (argOf kindOf) (given_or_zero assignable kindOf) f args (map (argOf kindOf) (combine (firstn (fixedN f) (params f)) (firstn (fixedN f) args)) ++ map ValueOf (skipn (fixedN f) args)) Hw Hwa) as [A B]; auto; try congruence.
      + intros [p v]. unfold argOf. cbn [fst snd]. destruct v; auto.
      + intros [p v] x Hx. apply given_zero_spec; auto.
      + apply Forall_app. split.
        * rewrite Forall_map, Forall_forall. intros [p v] _. unfold argOf, valid. cbn. destruct v; [apply zeroOf_valid|discriminate].
        * rewrite Forall_map. rewrite Forall_forall in *. intros v Hv. apply Hnv in Hv. unfold valid. destruct v; [congruence|discriminate].
      + split.
        * intros fixed extra H w. unfold bind. rewrite (A _ _ H). reflexivity.
        * intros H w. unfold bind. rewrite (B H). reflexivity.
    - destruct (Nat.eq_dec (List.length args) (fixedN f)) as [Hl2|Hl2].
      + assert (Hskip : skipn (fixedN f) args = []) by (apply skipn_all2; lia).
        assert (E : mustArgs kindOf f 0 args = Some (map (argOf kindOf) (combine (firstn (fixedN f) (params f)) (firstn (fixedN f) args)) ++ map ValueOf (skipn (fixedN f) args))).
        { rewrite <- (firstn_skipn (fixedN f) args) at 1. rewrite (mustArgs_fixed kindOf f _ _ (firstn (fixedN f) (params f)) 0 (fixed_params f)).
          - rewrite Hskip. reflexivity.
          - rewrite !firstn_length_le; auto. unfold fixedN. destruct (variadic f); lia. }
        rewrite E.
        destruct (call_spec assignable kindOf elemOf (argOf kindOf) (given_or_zero assignable kindOf) f args (map (argOf kindOf) (combine (firstn (fixedN f) (params f)) (firstn (fixedN f) args)) ++ map ValueOf (skipn (fixedN f) args)) Hw Hwa) as [A B]; auto; try congruence.
        * intros [p v]. unfold argOf. cbn [fst snd]. destruct v; auto.
        * intros [p v] x Hx. apply given_zero_spec; auto.
        * rewrite Hskip, app_nil_r. rewrite Forall_map, Forall_forall. intros [p v] _. unfold argOf, valid. cbn. destruct v; [apply zeroOf_valid|discriminate].
        * rewrite Hskip. constructor.
        * split.
          -- intros fixed extra H w. unfold bind. rewrite (A _ _ H). reflexivity.
          -- intros H w. unfold bind. rewrite (B H). reflexivity.
      + split; [intros fixed extra H; apply sees_length in H as [_ H]; [specialize (H V); lia|auto]|]. intros _ w.
        destruct (mustArgs kindOf f 0 args) as [vals|] eqn:E; [|reflexivity].
        assert (Hvl : List.length vals = List.length args).
        { clear -E. revert vals E. generalize 0%nat. induction args as [|a args IH]; intros i vals E; cbn in E; [injection E as <-; reflexivity|].
          destruct a; [destruct (nth_error _ _); [|discriminate]|]; destruct (mustArgs kindOf f (S i) args) eqn:E2; cbn in E; try discriminate; injection E as <-; cbn; f_equal; eauto. }
        unfold bind. rewrite reflectCall_short; [reflexivity|]. right. split; [auto|]. fold (fixedN f). lia.
  Qed.

  Lemma shouldCall_spec g ok f args : wf_func f -> Forall (wf_iface kindOf) args ->
    (forall fixed extra, sees assignable kindOf elemOf (given assignable kindOf) f args fixed extra ->
       forall w, shouldCall assignable implementsError kindOf elemOf g ok f args w =
       bind (body f fixed extra) (callResult implementsError kindOf g ok (tError g)) w) /\
    ((forall fixed extra, ~ sees assignable kindOf elemOf (given assignable kindOf) f args fixed extra) ->
       forall w, shouldCall assignable implementsError kindOf elemOf g ok f args w = (w, [], inr (Panics runtimeError))).
  Proof.
    intros Hw Hwa. unfold shouldCall.
    destruct (in_dec (fun x y : iface => ltac:(decide equality; apply Z.eq_dec)) INil args) as [Hn|Hn].
    { split.
      - intros fixed extra H. exfalso. apply sees_split in H as (a1 & a2 & -> & Hl & _ & H1 & H2); [|auto].
        apply in_app_or in Hn as [Hn|Hn].
        + assert (Hpl : List.length (firstn (fixedN f) (params f)) = fixedN f) by (apply firstn_length_le; unfold fixedN; destruct (variadic f); lia).
          revert H1. rewrite <- Hpl in Hl. generalize (firstn (fixedN f) (params f)), fixed, Hl. clear -Hn.
          induction a1 as [|a a1 IH]; intros ps fx Hl H; [destruct Hn|]. destruct ps as [|p ps]; [discriminate|]. cbn in H. inversion H; subst. cbn in *.
          destruct Hn as [->|Hn]; [eapply given_nil; eauto|]. eapply IH; eauto.
        + clear -Hn H2. induction H2; [destruct Hn|]. destruct Hn as [->|Hn]; [eapply given_nil; eauto|auto].
      - intros _ w. unfold bind. rewrite reflectCall_invalid; [reflexivity|]. apply in_map_iff. exists INil. auto. }
    assert (Hnn : Forall (fun v => v <> INil) args) by (rewrite Forall_forall; intros v Hv ->; auto).
    assert (Hvals : Forall valid (map ValueOf args)).
    { rewrite Forall_map. rewrite Forall_forall in *. intros v Hv. apply Hnn in Hv. unfold valid. destruct v; [congruence|discriminate]. }
    destruct (Nat.lt_ge_cases (List.length args) (fixedN f)) as [Hl|Hl].
    { split; [intros fixed extra H; apply sees_length in H; [lia|auto]|]. intros _ w.
      unfold bind. rewrite reflectCall_short; [reflexivity|]. left. fold (fixedN f). now rewrite map_length. }
    assert (D : variadic f = false /\ (fixedN f < List.length args)%nat \/ (variadic f = false -> List.length args = fixedN f)).
    { destruct (variadic f); [right; discriminate|]. destruct (Nat.eq_dec (List.length args) (fixedN f)); [auto|left; lia]. }
    destruct D as [[V Hl2]|Hl2].
    { split; [intros fixed extra H; apply sees_length in H as [_ H]; [specialize (H V); lia|auto]|]. intros _ w.
      unfold bind. rewrite reflectCall_short; [reflexivity|]. right. split; [auto|]. fold (fixedN f). now rewrite map_length. }
    assert (Evals : map ValueOf args = map (fun p => ValueOf (snd p)) (combine (firstn (fixedN f) (params f)) (firstn (fixedN f) args)) ++ map ValueOf (skipn (fixedN f) args)).
    { rewrite <- (firstn_skipn (fixedN f) args) at 1. rewrite map_app. f_equal.
      assert (Hpl : List.length (firstn (fixedN f) (params f)) = List.length (firstn (fixedN f) args)).
      { rewrite !firstn_length_le; auto. unfold fixedN; destruct (variadic f); lia. }
      revert Hpl. generalize (firstn (fixedN f) (params f)), (firstn (fixedN f) args). intros ps l. revert ps.
      induction l as [|a l IH]; intros ps Hp; destruct ps as [|p ps]; try discriminate; [reflexivity|]. cbn. f_equal. apply IH. cbn in Hp. lia. }
    assert (Hsk : Forall (fun v => v <> INil) (skipn (fixedN f) args)).
    { rewrite Forall_forall in *. intros v Hv. apply Hnn. rewrite <- (firstn_skipn (fixedN f) args). apply in_or_app. auto. }
    destruct (in_dec (fun x y : iface => ltac:(decide equality; apply Z.eq_dec)) INil args) as [|_]; [contradiction|].
    (* the arguments are not nil, so the relation need only be right for those *)
    assert (U : forall fixed extra, sees assignable kindOf elemOf (given assignable kindOf) f args fixed extra <->
                sees assignable kindOf elemOf (given_or_zero assignable kindOf) f args fixed extra).
    { intros fixed extra. rewrite !sees_split by auto. split; intros (a1 & a2 & -> & Hl1 & Hv & H1 & H2); exists a1, a2; repeat split; auto.
      - clear -H1. induction H1; constructor; auto. left. assumption.
      - assert (Hin : Forall (fun v => v <> INil) a1) by (apply Forall_app in Hnn; tauto).
        revert H1. generalize (firstn (fixedN f) (params f)), fixed. clear -Hin. induction Hin as [|a a1 Ha _ IH]; intros ps fx H.
        + rewrite combine_nil in *. inversion H. constructor.
        + destruct ps as [|p ps]; cbn in *; inversion H; subst; constructor; auto.
          cbn in *. match goal with H : given_or_zero _ _ _ _ _ |- _ => destruct H as [H|[H _]]; [exact H|congruence] end. }
    rewrite Evals in *.
    destruct (call_spec assignable kindOf elemOf (fun p => match snd p with INil => zeroOf kindOf (fst p) | v => ValueOf v end) (given_or_zero assignable kindOf) f args (map (argOf kindOf) (combine (firstn (fixedN f) (params f)) (firstn (fixedN f) args)) ++ map ValueOf (skipn (fixedN f) args)) Hw Hwa) as [A B]; auto.
    - intros [p v]. cbn [snd]. destruct v; auto.
    - intros [p v] x Hx. apply given_zero_spec; auto.
    - apply Forall_app. apply Forall_app in Hvals as [_ Hv2]. split; [|exact Hv2].
      rewrite Forall_map, Forall_forall. intros [p v] _. unfold argOf, valid. cbn. destruct v; [apply zeroOf_valid|discriminate].
    - assert (Earg : map (argOf kindOf) (combine (firstn (fixedN f) (params f)) (firstn (fixedN f) args)) = map (fun p => ValueOf (snd p)) (combine (firstn (fixedN f) (params f)) (firstn (fixedN f) args))).
      { apply map_ext_in. intros [p v] Hp. apply in_combine_r in Hp. unfold argOf. cbn. destruct v; [|reflexivity].
        exfalso. apply Hn. rewrite <- (firstn_skipn (fixedN f) args). apply in_or_app. auto. }
      rewrite Earg in A, B. split.
      + intros fixed extra H w. apply U in H. unfold bind. rewrite (A _ _ H). reflexivity.
      + intros H w. unfold bind. rewrite B; [reflexivity|]. intros fixed extra Hs. apply U in Hs. eapply H; eauto.
  Qed.

  (** the result *)
  Definition wf_results (rs : list rvalue) : Prop := Forall valid rs.

  Lemma callResult_none g ok report rs w : wf_results rs -> ~ error_result implementsError rs ->
    forall t, t <> 0 -> hasT g t w ->
    callResult implementsError kindOf g ok report rs w = (w, [], inl (map (Interface kindOf) rs)).
  Proof.
    intros Hv He t Hn Ht. unfold callResult.
    destruct ((0 <? List.length rs)%nat && implementsError (typeOf (last rs RInvalid))) eqn:E; [|reflexivity].
    apply andb_true_iff in E as [E1 E2]. apply Nat.ltb_lt in E1.
    assert (Hrs : rs <> []) by (destruct rs; [cbn in E1; lia|discriminate]).
    destruct (exists_last Hrs) as (rs' & r & ->). rewrite last_last in *.
    assert (Hr : valid r) by (apply Forall_app in Hv as [_ Hv]; now inversion Hv).
    unfold bind. rewrite (CurrentT_has _ _ _ Hn Ht).
    destruct r as [|ty d|ty v]; [now elim Hr| |].
    - exfalso. apply He. exists rs', (RVal ty d). auto.
    - destruct v as [|ty' k d]; [reflexivity|]. exfalso. apply He. exists rs', (RIface ty (IVal ty' k d)). repeat split; auto. discriminate.
  Qed.
  Lemma callResult_error g ok report rs w : error_result implementsError rs ->
    forall t, t <> 0 -> hasT g t w -> 
    forall w' e (r : unit + abrupt), report t (words ok) w = (w', e, r) ->
    callResult implementsError kindOf g ok report rs w =
      (w', (g, Errors t OfAssert) :: e, match r with inl _ => inl (map (Interface kindOf) rs) | inr a => inr a end).
  Proof.
    intros (rs' & r & -> & He) t Hn Ht w' e r' Er. unfold callResult.
    assert (E : (0 <? List.length (rs' ++ [r]))%nat && implementsError (typeOf (last (rs' ++ [r]) RInvalid)) = true).
    { rewrite last_last, app_length. apply andb_true_iff. split; [apply Nat.ltb_lt; cbn; lia|]. destruct r; cbn; tauto. }
    rewrite E, last_last. unfold bind at 1. rewrite (CurrentT_has _ _ _ Hn Ht).
    assert (Ei : exists ty k d, Interface kindOf r = IVal ty k d).
    { destruct r as [|ty d|ty [|ty' k d]]; cbn in *; [tauto|eauto|destruct He; congruence|eauto]. }
    destruct Ei as (ty & k & d & Ei). rewrite Ei. unfold assertNoError, Fail. unfold bind, emit, ret.
    destruct ok; cbn [negb words] in *; rewrite Er; destruct r'; cbn; rewrite ?app_nil_r; reflexivity.
  Qed.
  Lemma callResult_no_t g ok report rs w : (forall rs' r, rs = rs' ++ [r] -> implementsError (typeOf r) = false) ->
    callResult implementsError kindOf g ok report rs w = (w, [], inl (map (Interface kindOf) rs)).
  Proof.
    intros H. unfold callResult.
    destruct (0 <? List.length rs)%nat eqn:E1; [|reflexivity]. apply Nat.ltb_lt in E1.
    assert (Hrs : rs <> []) by (destruct rs; [cbn in E1; lia|discriminate]).
    destruct (exists_last Hrs) as (rs' & r & ->). rewrite last_last, (H _ _ eq_refl). reflexivity.
  Qed.

  (** ** Set *)
  Lemma settable_dec o r : wf_iface kindOf r -> (exists p x, settable assignable kindOf elemOf o r p x) \/ (forall p x, ~ settable assignable kindOf elemOf o r p x).
  Proof.
    intros Hw. destruct o as [|ty k p]; [right; intros p x H; inversion H|].
    destruct (Z.eq_dec k 22) as [->|Hk]; [|right; intros q x H; inversion H; congruence].
    destruct (Z.eq_dec p 0) as [->|Hp]; [right; intros q x H; inversion H; congruence|].
    destruct r as [|rt rk d]; [right; intros q x H; inversion H; subst; eapply given_nil; eauto|].
    destruct (assignable rt (elemOf ty)) eqn:A.
    - left. exists p, (assignTo kindOf (elemOf ty) (ValueOf (IVal rt rk d))). constructor; [auto|]. apply given_spec; [auto|discriminate|]. auto.
    - right. intros q x H. inversion H; subst. match goal with H : given _ _ _ _ _ |- _ => apply given_spec in H as [H _]; [|auto|discriminate] end. cbn in *. congruence.
  Qed.

  Lemma SetLoop_spec : forall objs rs done m, Forall (wf_iface kindOf) rs ->
    exists l b, writes assignable kindOf elemOf objs rs l b /\
      forall i, skipn i done = rs -> SetLoop assignable kindOf elemOf done i objs m = (fold_left (fun m q => upd m (fst q) (snd q)) l m, b).
  Proof.
    induction objs as [|o objs IH]; intros rs done m Hw.
    - exists [], false. split; [constructor|reflexivity].
    - destruct rs as [|r rs].
      + exists [], true. split; [constructor|]. intros i Hi. cbn [SetLoop].
        assert (En : nth_error done i = None).
        { apply nth_error_None. rewrite <- (firstn_skipn i done), Hi, app_nil_r. rewrite firstn_length. lia. }
        destruct o as [|ty k p]; [reflexivity|]. destruct (negb (k =? KPtr)); [reflexivity|]. rewrite En. reflexivity.
      + inversion Hw as [|? ? Hr Hw']; subst.
        assert (Hnth : forall i, skipn i done = r :: rs -> nth_error done i = Some r /\ skipn (S i) done = rs).
        { intros i Hi. revert done Hi. clear. induction i; intros done Hi; destruct done; cbn in *; try discriminate; [injection Hi as <- <-; auto|]. apply IHi. exact Hi. }
        destruct (settable_dec o r Hr) as [(p & x & Hs)|Hs].
        * destruct (IH rs done (upd m p x) Hw') as (l & b & W & E). exists ((p, x) :: l), b. split; [econstructor; eauto|].
          intros i Hi. destruct (Hnth i Hi) as [Hn Hsk]. inversion Hs as [pty p' v x' Hp Hg]; subst. cbn [SetLoop].
          change (negb (22 =? KPtr)) with false. cbv iota. rewrite Hn. apply Z.eqb_neq in Hp as Hp'. rewrite Hp'.
          destruct r as [|rt rk d]; [now apply given_nil in Hg|]. apply given_spec in Hg as [Ha Hx]; [|auto|discriminate].
          cbn [ValueOf] in *. rewrite Ha. rewrite <- Hx. rewrite (E (S i) eq_refl). reflexivity.
        * exists [], true. split; [now constructor|]. intros i Hi. destruct (Hnth i Hi) as [Hn _]. cbn [SetLoop].
          destruct o as [|ty k p]; [reflexivity|]. destruct (k =? KPtr) eqn:Ek; cbn [negb]; [|reflexivity]. rewrite Hn.
          destruct (p =? 0) eqn:Ep; [reflexivity|]. destruct r as [|rt rk d]; [reflexivity|]. cbn [ValueOf typeOf].
          destruct (assignable rt (elemOf ty)) eqn:A; [|reflexivity]. exfalso.
          apply Z.eqb_eq in Ek. subst k. apply Z.eqb_neq in Ep. eapply Hs. constructor; [exact Ep|]. apply given_spec; [auto|discriminate|]. cbn. auto.
  Qed.

  Lemma fold_upd l : forall (m : store) p, fold_left (fun m q => upd m (fst q) (snd q)) l m p = match last_write p l with Some x => x | None => m p end.
  Proof.
    induction l as [|[q x] l IH]; intros m p; [reflexivity|]. cbn. rewrite IH. destruct (last_write p l); [reflexivity|].
    unfold upd. rewrite (Z.eqb_sym p q). destruct (q =? p); reflexivity.
  Qed.
End CallTop.
