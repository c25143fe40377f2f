From Verif Require Import Base RotationModel RotationSpec RPipeSpec.
From Verif Require AsyncModel AsyncSpec AsyncProofs AsyncProps RotationProofs RotationProps.

Section Proofs.
  Variable B : bool.
  Variable n : nat.
  Variable WritePath : bytes.
  Variable Stat : Type.
  Variable noStat : Stat.
  Variable Max : Z.
  Variable hasDirectory : bytes -> bool.
  Notation step := (RPipeModel.step B n WritePath Stat Max hasDirectory).
  Notation run := (RPipeModel.run B n WritePath Stat Max hasDirectory).
  Notation start := (RPipeModel.start WritePath Stat noStat).
  Notation astep := (AsyncModel.step B n).
  Notation arun := (AsyncModel.run B n).
  Notation rstep := (RotationModel.step WritePath Stat Max hasDirectory).
  Notation rrun := (RotationModel.run WritePath Stat Max hasDirectory).
  Notation asyncs := (asyncs Stat).
  Notation rots := (rots Stat).
  Notation qw := (qw Stat).
  Notation qr := (qr Stat).

  Ltac inv_step E := cbn [RPipeModel.step] in E; try discriminate E;
    repeat match type of E with
    | context [astep ?a ?b] => let H := fresh "A" in destruct (astep a b) as [?w|] eqn:H; cbn [obind] in E; try discriminate E
    | context [rstep ?a ?b] => let H := fresh "R" in destruct (rstep a b) as [[?x ?o]|] eqn:H; cbn [obind] in E; try discriminate E
    | context [taken ?a] => let H := fresh "T" in destruct (taken a) as [?b|] eqn:H; cbn [obind] in E; try discriminate E
    | (if ?c then _ else _) = _ => let H := fresh "C" in destruct c eqn:H; try discriminate E
    end; try (injection E as <- <-).

  (** One step of the pipe is at most one step of either side *)
  Lemma step_async : forall s e s' o, step s e = Some (s', o) -> arun (qw s) (asyncs [e]) = Some (qw s').
  Proof.
    intros s e s' o E. unfold RPipeSpec.asyncs. destruct e as [e|rec|e|e rec r|]; cbn [flat_map app].
    - destruct e; inv_step E; cbn [AsyncModel.run]; rewrite ?A; reflexivity.
    - inv_step E. reflexivity.
    - destruct e; inv_step E; reflexivity.
    - inv_step E. cbn [AsyncModel.run]. rewrite A. reflexivity.
    - inv_step E. cbn [AsyncModel.run]. rewrite A. reflexivity.
  Qed.
  Lemma step_rot : forall s e s' o, step s e = Some (s', o) -> rrun (qr s) (rots [e]) = Some (qr s', o).
  Proof.
    intros s e s' o E. unfold RPipeSpec.rots. destruct e as [e|rec|e|e rec r|]; cbn [flat_map app].
    - destruct e; inv_step E; reflexivity.
    - inv_step E. cbn [RotationModel.run]. rewrite R. cbn [obind]. now rewrite app_nil_r.
    - destruct e; inv_step E; cbn [RotationModel.run]; rewrite R; cbn [obind]; now rewrite app_nil_r.
    - inv_step E. cbn [RotationModel.run]. rewrite R. cbn [obind]. now rewrite app_nil_r.
    - inv_step E. cbn [RotationModel.run]. rewrite R. cbn [obind]. now rewrite app_nil_r.
  Qed.
  Lemma rrun_app : forall a b s, rrun s (a ++ b) = let? (s1, o1) := rrun s a in let? (s2, o2) := rrun s1 b in Some (s2, o1 ++ o2).
  Proof.
    induction a as [|e a IH]; intros b s; cbn [app RotationModel.run].
    - cbn [obind]. destruct (rrun s b) as [[s1 o1]|]; reflexivity.
    - destruct (rstep s e) as [[s1 o1]|]; cbn [obind]; [|reflexivity]. rewrite IH. destruct (rrun s1 a) as [[s2 o2]|]; cbn [obind]; [|reflexivity].
      destruct (rrun s2 b) as [[s3 o3]|]; cbn [obind]; [|reflexivity]. now rewrite app_assoc.
  Qed.
  Lemma run_app : forall a b s, run s (a ++ b) = let? (s1, o1) := run s a in let? (s2, o2) := run s1 b in Some (s2, o1 ++ o2).
  Proof.
    induction a as [|e a IH]; intros b s; cbn [app RPipeModel.run].
    - cbn [obind]. destruct (run s b) as [[s1 o1]|]; reflexivity.
    - destruct (step s e) as [[s1 o1]|]; cbn [obind]; [|reflexivity]. rewrite IH. destruct (run s1 a) as [[s2 o2]|]; cbn [obind]; [|reflexivity].
      destruct (run s2 b) as [[s3 o3]|]; cbn [obind]; [|reflexivity]. now rewrite app_assoc.
  Qed.
  Lemma asyncs_app : forall a b, asyncs (a ++ b) = asyncs a ++ asyncs b.
  Proof. intros. unfold RPipeSpec.asyncs. apply flat_map_app. Qed.
  Lemma rots_app : forall a b, rots (a ++ b) = rots a ++ rots b.
  Proof. intros. unfold RPipeSpec.rots. apply flat_map_app. Qed.
  Lemma run_rot : forall l s s' o, run s l = Some (s', o) -> rrun (qr s) (rots l) = Some (qr s', o).
  Proof.
    induction l as [|e l IH]; intros s s' o R; cbn [RPipeModel.run] in R; [injection R as <- <-; reflexivity|].
    destruct (step s e) as [[s1 o1]|] eqn:E; [|discriminate R]. cbn [obind] in R. destruct (run s1 l) as [[s2 o2]|] eqn:E2; [|discriminate R]. injection R as <- <-.
    change (e :: l) with ([e] ++ l). rewrite rots_app, rrun_app, (step_rot _ _ _ _ E). cbn [obind]. rewrite (IH _ _ _ E2). reflexivity.
  Qed.
  Lemma run_async : forall l s s' o, run s l = Some (s', o) -> arun (qw s) (asyncs l) = Some (qw s').
  Proof.
    induction l as [|e l IH]; intros s s' o R; cbn [RPipeModel.run] in R; [injection R as <- <-; reflexivity|].
    destruct (step s e) as [[s1 o1]|] eqn:E; [|discriminate R]. cbn [obind] in R. destruct (run s1 l) as [[s2 o2]|] eqn:E2; [|discriminate R]. injection R as <- <-.
    change (e :: l) with ([e] ++ l). rewrite asyncs_app, AsyncProofs.run_app, (step_async _ _ _ _ E). exact (IH _ _ _ E2).
  Qed.

  (** ** What the goroutine hands over is what the other writer is called with *)
  Definition busy (x : state Stat) : bool := match wp _ x with WIdle | WDone => false | _ => true end.
  (** A step that is no call begins no Write; it ends one if there is a result *)
  Lemma rstep_busy : forall x e x' o, rstep x e = Some (x', o) -> match e with ECall _ _ | EClose _ => False | _ => True end ->
    match resultOf o with None => busy x' = busy x | Some r => busy x = true /\ busy x' = false /\ r <> AsyncModel.WPanic end.
  Proof.
    intros x e x' o E N. unfold busy. destruct e; try contradiction; cbn [RotationModel.step] in E; unfold stepW, stepR in E;
      repeat match type of E with
      | match ?c with _ => _ end = _ => let H := fresh "C" in destruct c eqn:H; try discriminate E
      | (let '_ := ?c in _) = _ => let H := fresh "C" in destruct c eqn:H; try discriminate E
      | Some (if ?c then (_, _) else _) = _ => destruct c
      end; try (injection E as <- <-); cbn; try reflexivity; repeat match goal with H : wp _ _ = _ |- _ => rewrite H end; cbn; try reflexivity;
      repeat match goal with |- context [if ?c then _ else _] => destruct c end; repeat split; try discriminate; try reflexivity.
  Qed.
  Lemma rcall_busy : forall x rec x' o, rstep x (ECall _ rec) = Some (x', o) -> busy x = false /\ busy x' = true.
  Proof. intros x rec x' o E. unfold busy. cbn [RotationModel.step] in E. unfold stepW in E. destruct (wp _ x); try discriminate E. injection E as <- <-. split; reflexivity. Qed.
  Lemma rclose_busy : forall x x' o, rstep x (EClose _) = Some (x', o) -> busy x = false /\ busy x' = false /\ wp _ x' = WDone /\ rp _ x' = RGone /\ fs _ x' = fs _ x /\ o = [] /\ closed (file _ x') = true.
  Proof.
    intros x x' o E. unfold busy. cbn [RotationModel.step] in E. unfold stepW in E. destruct (wp _ x); try discriminate E. destruct (rp _ x); try discriminate E; injection E as <- <-; repeat split.
  Qed.
  (** What the goroutine holds stays what it is until it is written *)
  Definition heldBytes (w : AsyncModel.writer) : list bytes := match taken w with Some b => [nth b (AsyncModel.heap w) []] | None => [] end.
  Lemma held_step : forall evs w e w' b, AsyncProofs.inv n evs w -> astep w e = Some w' -> match e with AsyncModel.GWrite _ _ => False | _ => True end ->
    taken w = Some b -> taken w' = Some b /\ heldBytes w' = heldBytes w.
  Proof.
    intros evs w e w' b I E N T. pose proof (AsyncProofs.i_held _ _ _ I b) as Hb.
    assert (Ib : In b (AsyncProofs.held w)).
    { unfold AsyncProofs.held. unfold taken in T. destruct (AsyncModel.g w); try discriminate T; injection T as ->; left; reflexivity. }
    specialize (Hb Ib). destruct Hb as [H1 H2]. unfold heldBytes. rewrite T.
    destruct e as [r|bf r|v bf r|v|v r| | | | | |r x| |]; try contradiction; cbn [AsyncModel.step] in E; unfold taken in *;
      repeat match type of E with
      | match ?c with _ => _ end = _ => let H := fresh "C" in destruct c eqn:H; try discriminate E
      end; try (injection E as <-); cbn [AsyncModel.g AsyncModel.heap] in *; try discriminate T; try (rewrite T); try (split; [reflexivity|reflexivity]); try (split; [exact T|]; rewrite ?T).
    all: try (injection T as ->); try (split; [reflexivity|]); try (rewrite app_nth1 by exact H1; reflexivity).
    all: try (rewrite AsyncProofs.put_other; [reflexivity|]; intros ->; apply H2; apply AsyncProofs.inb_true; assumption).
  Qed.
  Definition flows (l : list (event Stat)) (s : pipe Stat) : Prop :=
    calls _ (rots l) = AsyncSpec.written (asyncs l) ++ (if busy (qr s) then heldBytes (qw s) else []) /\ (busy (qr s) = true -> taken (qw s) <> None).
  Lemma calls_app : forall a b, calls Stat (a ++ b) = calls _ a ++ calls _ b.
  Proof. intros. unfold calls. apply flat_map_app. Qed.
  Lemma written_app : forall a b, AsyncSpec.written (a ++ b) = AsyncSpec.written a ++ AsyncSpec.written b.
  Proof. intros. unfold AsyncSpec.written. apply flat_map_app. Qed.
  Lemma flows_step : forall l s e s' o, AsyncProofs.inv n (asyncs l) (qw s) -> flows l s -> step s e = Some (s', o) -> flows (l ++ [e]) s'.
  Proof.
    intros l s e s' o I [F1 F2] E. unfold flows. rewrite rots_app, asyncs_app, calls_app, written_app, F1, <- !app_assoc.
    destruct e as [e|rec|e|e rec r|].
    - assert (A : astep (qw s) e = Some (qw s') /\ qr s' = qr s /\ match e with AsyncModel.GWrite _ _ => False | _ => True end).
      { destruct e; inv_step E; cbn; auto. }
      destruct A as (A & -> & N). cbn [RPipeSpec.rots RPipeSpec.asyncs flat_map app calls].
      assert (W0 : AsyncSpec.written [e] = []) by (destruct e; try contradiction; reflexivity). rewrite W0. cbn [app]. rewrite app_nil_r.
      destruct (busy (qr s)) eqn:Bs; [|split; [reflexivity|discriminate]].
      destruct (taken (qw s)) as [b|] eqn:T; [|destruct (F2 eq_refl eq_refl)]. destruct (held_step _ _ _ _ b I A N T) as [T' H]. rewrite H. split; [reflexivity|]. intros _. congruence.
    - inv_step E. destruct (rcall_busy _ _ _ _ R) as [B1 B2]. cbn [RPipeModel.qr RPipeModel.qw]. rewrite B1, B2. cbn [RPipeSpec.rots RPipeSpec.asyncs flat_map app calls AsyncSpec.written].
      unfold heldBytes. rewrite T. apply AsyncProofs.bytes_eqb_true in C. rewrite C. split; [reflexivity|discriminate].
    - assert (A : exists x, rstep (qr s) e = Some (x, o) /\ resultOf o = None /\ s' = mkPipe _ (qw s) x /\ match e with ECall _ _ | EClose _ => False | _ => True end).
      { destruct e; inv_step E; eexists; (split; [reflexivity|]); (split; [|split; [reflexivity|exact Logic.I]]); unfold sameResult in C;
          match goal with |- resultOf ?x = None => destruct (resultOf x) as [[]|]; [discriminate C..|reflexivity] end. }
      destruct A as (x & R & Ro & -> & N). pose proof (rstep_busy _ _ _ _ R N) as Bs. rewrite Ro in Bs. cbn [RPipeModel.qr RPipeModel.qw]. rewrite Bs.
      assert (C0 : calls _ (rots [QStep _ e]) = []) by (destruct e; try contradiction; reflexivity). rewrite C0. cbn [RPipeSpec.asyncs flat_map app AsyncSpec.written]. rewrite app_nil_r.
      split; [reflexivity|exact F2].
    - inv_step E. cbn [RPipeModel.qr RPipeModel.qw].
      assert (N : match e with ECall _ _ | EClose _ => False | _ => True end).
      { destruct e; try exact Logic.I; exfalso.
        - cbn [RotationModel.step] in R. unfold stepW in R. destruct (wp _ (qr s)); try discriminate R. injection R as <- <-. destruct r; discriminate C.
        - destruct (rclose_busy _ _ _ R) as (_ & _ & _ & _ & _ & -> & _). destruct r; discriminate C. }
      pose proof (rstep_busy _ _ _ _ R N) as Bs. destruct (resultOf o0) as [r0|]; [|destruct r; discriminate C]. destruct Bs as (B1 & B2 & _). rewrite B1, B2.
      assert (C0 : calls _ (rots [QReturn _ e rec r]) = []) by (destruct e; try contradiction; reflexivity). rewrite C0. cbn [RPipeSpec.asyncs flat_map app AsyncSpec.written]. rewrite !app_nil_r.
      split; [|discriminate]. f_equal. unfold heldBytes, taken. cbn [AsyncModel.step] in A. destruct (AsyncModel.g (qw s)) as [|b| |b|]; try discriminate A;
        destruct (AsyncModel.bytes_eqb (nth b (AsyncModel.heap (qw s)) []) rec) eqn:Q; try discriminate A; apply AsyncProofs.bytes_eqb_true in Q; now rewrite Q.
    - inv_step E. destruct (rclose_busy _ _ _ R) as (B1 & B2 & _). cbn [RPipeModel.qr RPipeModel.qw]. rewrite B1, B2. split; [reflexivity|discriminate].
  Qed.
  Lemma run_snoc : forall l e s s' o, run s (l ++ [e]) = Some (s', o) -> exists s1 o1 o2, run s l = Some (s1, o1) /\ step s1 e = Some (s', o2) /\ o = o1 ++ o2.
  Proof.
    intros l e s s' o R. rewrite run_app in R. destruct (run s l) as [[s1 o1]|]; [|discriminate R]. cbn [obind RPipeModel.run] in R.
    destruct (step s1 e) as [[s2 o2]|] eqn:E; [|discriminate R]. cbn [obind] in R. injection R as <- <-. exists s1, o1, o2. now rewrite app_nil_r.
  Qed.
  Lemma start_idle : forall f, wp _ (qr (start f)) = WIdle.
  Proof. intro f. unfold RPipeModel.start. cbn [RPipeModel.qr]. unfold NewWriter. destruct (find (links f) WritePath); [reflexivity|]. unfold create. destruct (find (links f) WritePath); reflexivity. Qed.
  Lemma flows_run : forall f l s o, run (start f) l = Some (s, o) -> flows l s.
  Proof.
    intros f l. induction l as [|e l IH] using rev_ind; intros s o R.
    - injection R as <- <-. split; [unfold busy; rewrite start_idle; reflexivity|]. unfold busy. rewrite start_idle. discriminate.
    - destruct (run_snoc _ _ _ _ _ R) as (s1 & o1 & o2 & R1 & E & _). eapply flows_step; [|exact (IH _ _ R1)|exact E].
      apply (AsyncProofs.inv_run B n). exact (run_async _ _ _ _ R1).
  Qed.
  (** The rotating writer does not panic in Write *)
  Lemma no_panic : forall l s s' o rec, run s l = Some (s', o) -> ~ In (AsyncModel.GWrite rec AsyncModel.WPanic) (asyncs l).
  Proof.
    induction l as [|e l IH]; intros s s' o rec R; [intros []|]. cbn [RPipeModel.run] in R.
    destruct (step s e) as [[s1 o1]|] eqn:E; [|discriminate R]. cbn [obind] in R. destruct (run s1 l) as [[s2 o2]|] eqn:E2; [|discriminate R].
    change (e :: l) with ([e] ++ l). rewrite asyncs_app, in_app_iff. intros [K|K]; [|exact (IH _ _ _ rec E2 K)]. destruct e as [e|rc|e|e rc r|]; cbn in K; try (destruct K; fail); destruct K as [K|[]].
    - subst e. discriminate E.
    - injection K as -> ->. inv_step E. unfold sameResult in C. destruct (resultOf o0) as [[]|]; discriminate C.
    - discriminate K.
  Qed.
  (** ** Files stay files *)
  Lemma setContent_grows : forall l i c, (List.length l <= List.length (setContent l i c))%nat.
  Proof. intros. unfold setContent. rewrite app_length. cbn [List.length]. rewrite firstn_length, skipn_length. lia. Qed.
  Lemma good_create : forall f, good_fs f -> good_fs (fst (create WritePath f)).
  Proof.
    intros f G. unfold create. destruct (find (links f) WritePath) as [i|] eqn:Fi; cbn [fst]; intros p j F; cbn [links contents] in *.
    - pose proof (G _ _ F). pose proof (setContent_grows (contents f) i []). lia.
    - rewrite app_length. cbn [List.length]. rewrite RotationProofs.find_link in F. destruct (streq WritePath p); [injection F as <-; lia|]. pose proof (G _ _ F). lia.
  Qed.
  Lemma good_step : forall x e x' o, rstep x e = Some (x', o) -> good_fs (fs _ x) -> good_fs (fs _ x').
  Proof.
    intros x e x' o E G. destruct e; cbn [RotationModel.step] in E; unfold stepW, stepR in E;
      repeat match type of E with
      | match ?c with _ => _ end = _ => let H := fresh "C" in destruct c eqn:H; try discriminate E
      | (let '_ := ?c in _) = _ => let H := fresh "C" in destruct c eqn:H; try discriminate E
      | Some (if ?c then (_, _) else _) = _ => destruct c
      end; try (injection E as <- <-); cbn [fs setW setR setTimer setStatus setFile setStat]; try exact G;
      repeat match goal with |- context [if ?c then _ else _] => destruct c; cbn [fs setW setR setTimer setStatus setFile setStat fst] end; try exact G.
    all: try match goal with H : create _ _ = (?f, _) |- good_fs ?f => replace f with (fst (create WritePath (fs _ x))) by (rewrite H; reflexivity); apply good_create; exact G end.
    all: try match goal with H : fileWrite _ _ _ = (?f, _) |- good_fs ?f => unfold fileWrite in H; injection H as <- _; intros p j F; cbn [links contents] in *; pose proof (G _ _ F);
      match goal with |- (_ < List.length (setContent ?a ?b ?c))%nat => pose proof (setContent_grows a b c) end; lia end.
    all: try match goal with H : rename _ _ _ _ = Some ?f |- good_fs ?f => unfold rename in H; destruct (find (links (fs _ x)) WritePath) eqn:Fi; [|discriminate H];
      destruct (hasDirectory _); [|discriminate H]; injection H as <-; intros q j F; cbn [links contents] in *; rewrite RotationProofs.find_link in F;
      match type of F with (if ?c then _ else _) = _ => destruct c end; [injection F as <-; exact (G _ _ Fi)|]; rewrite RotationProofs.find_unlink in F;
      match type of F with (if ?c then _ else _) = _ => destruct c end; [discriminate F|exact (G _ _ F)] end.
    all: try (intros q j F; cbn [links contents] in *; rewrite RotationProofs.find_unlink in F; match type of F with (if ?c then _ else _) = _ => destruct c end; [discriminate F|exact (G _ _ F)]).
  Qed.
  Lemma good_rrun : forall l x x' o, rrun x l = Some (x', o) -> good_fs (fs _ x) -> good_fs (fs _ x').
  Proof.
    induction l as [|e l IH]; intros x x' o R G; cbn [RotationModel.run] in R; [injection R as <- <-; exact G|].
    destruct (rstep x e) as [[x1 o1]|] eqn:E; [|discriminate R]. cbn [obind] in R. destruct (rrun x1 l) as [[x2 o2]|] eqn:E2; [|discriminate R]. injection R as <- <-.
    exact (IH _ _ _ E2 (good_step _ _ _ _ E G)).
  Qed.
  Lemma good_start : forall f, good_fs f -> good_fs (fs _ (qr (start f))).
  Proof.
    intros f G. unfold RPipeModel.start. cbn [RPipeModel.qr]. unfold NewWriter. destruct (find (links f) WritePath); [exact G|]. pose proof (good_create f G) as H.
    destruct (create WritePath f). exact H.
  Qed.
  (** Nothing happens in a closed rotating writer *)
  Lemma done_step : forall x e, wp _ x = WDone -> rp _ x = RGone -> rstep x e = None.
  Proof. intros x e W R. destruct e; cbn [RotationModel.step]; unfold stepW, stepR; rewrite ?W, ?R; try reflexivity. Qed.
  Lemma done_run : forall l s s' o, wp _ (qr s) = WDone -> rp _ (qr s) = RGone -> run s l = Some (s', o) -> qr s' = qr s /\ o = [].
  Proof.
    intros l s s' o W R Rn. pose proof (run_rot _ _ _ _ Rn) as Q. destruct (rots l) as [|e r]; [injection Q as Q1 Q2; auto|]. cbn [RotationModel.run] in Q. rewrite done_step in Q by assumption. discriminate Q.
  Qed.
  (** An event of the async writer among the events *)
  Lemma asyncs_split : forall l a e b, asyncs l = a ++ e :: b -> (forall rec r, e <> AsyncModel.GWrite rec r) -> e <> AsyncModel.CloseEnd ->
    exists x y, l = x ++ QAsync _ e :: y /\ asyncs x = a /\ asyncs y = b.
  Proof.
    induction l as [|p l IH]; intros a e b E N1 N2; [destruct a; discriminate E|]. change (p :: l) with ([p] ++ l) in E. rewrite asyncs_app in E.
    assert (S1 : asyncs [p] = [] \/ exists q, asyncs [p] = [q] /\ (p = QAsync _ q \/ (exists rec r, q = AsyncModel.GWrite rec r) \/ q = AsyncModel.CloseEnd)).
    { destruct p as [q|rec|q|q rec r|]; cbn; [right; eexists; split; [reflexivity|eauto]|left; reflexivity|left; reflexivity|right; eexists; split; [reflexivity|eauto]|right; eexists; split; [reflexivity|eauto]]. }
    destruct S1 as [S1|(q & S1 & K)]; rewrite S1 in E.
    - destruct (IH a e b E N1 N2) as (x & y & -> & A & C). exists (p :: x), y. repeat split; [|exact C]. change (p :: x) with ([p] ++ x). rewrite asyncs_app, S1. exact A.
    - cbn [app] in E. destruct a as [|a0 a]; cbn [app] in E.
      + injection E as -> <-. destruct K as [->|[(rec & r & ->)| ->]]; [|destruct (N1 rec r eq_refl)|destruct (N2 eq_refl)]. exists [], l. repeat split.
      + injection E as -> E. destruct (IH a e b E N1 N2) as (x & y & -> & A & C). exists (p :: x), y. repeat split; [|exact C]. change (p :: x) with ([p] ++ x). rewrite asyncs_app, S1, A. reflexivity.
  Qed.
  Lemma asyncs_in : forall l e, In e (asyncs l) -> In (QAsync _ e) l \/ (exists rec r, e = AsyncModel.GWrite rec r) \/ e = AsyncModel.CloseEnd.
  Proof.
    intros l e I. unfold RPipeSpec.asyncs in I. apply in_flat_map in I. destruct I as (p & P & Q). destruct p as [q|rec|q|q rec r|]; cbn in Q; try (destruct Q; fail);
      destruct Q as [<-|[]]; [left; exact P|right; left; eauto|right; right; reflexivity].
  Qed.
  (** The other writer is closed only when the goroutine is gone *)
  Lemma rstep_done : forall x e x' o, rstep x e = Some (x', o) -> e <> EClose _ -> wp _ x' = WDone -> wp _ x = WDone.
  Proof.
    intros x e x' o E N W. destruct e; try congruence; cbn [RotationModel.step] in E; unfold stepW, stepR in E;
      repeat match type of E with
      | match ?c with _ => _ end = _ => let H := fresh "C" in destruct c eqn:H; try discriminate E
      | (let '_ := ?c in _) = _ => let H := fresh "C" in destruct c eqn:H; try discriminate E
      | Some (if ?c then (_, _) else _) = _ => destruct c
      end; try (injection E as <- <-); cbn in W; try discriminate W; try exact W;
      repeat match type of W with context [if ?c then _ else _] => destruct c; cbn in W end; try discriminate W; try exact W.
  Qed.
  Lemma done_over : forall l s s' o, run s l = Some (s', o) -> (wp _ (qr s) = WDone -> AsyncModel.g (qw s) = AsyncModel.GOver) -> wp _ (qr s') = WDone -> AsyncModel.g (qw s') = AsyncModel.GOver.
  Proof.
    induction l as [|e l IH]; intros s s' o R H; cbn [RPipeModel.run] in R; [injection R as <- <-; exact H|].
    destruct (step s e) as [[s1 o1]|] eqn:E; [|discriminate R]. cbn [obind] in R. destruct (run s1 l) as [[s2 o2]|] eqn:E2; [|discriminate R]. injection R as <- <-.
    refine (IH _ _ _ E2 _). intro W. destruct e as [e|rec|e|e rec r|].
    - assert (A : astep (qw s) e = Some (qw s1) /\ qr s1 = qr s) by (destruct e; inv_step E; cbn; auto). destruct A as [A Q]. rewrite Q in W.
      exact (proj1 (AsyncProofs.over_stays _ _ _ _ _ A (H W))).
    - inv_step E. cbn [RPipeModel.qr RPipeModel.qw] in *. apply H. eapply rstep_done; [exact R|discriminate|exact W].
    - assert (A : exists x o', rstep (qr s) e = Some (x, o') /\ e <> EClose _ /\ s1 = mkPipe _ (qw s) x).
      { destruct e; inv_step E; do 2 eexists; (split; [reflexivity|]); (split; [discriminate|reflexivity]). }
      destruct A as (x & o' & R & N & ->). cbn [RPipeModel.qr RPipeModel.qw] in *. apply H. eapply rstep_done; eassumption.
    - exfalso. inv_step E. cbn [RPipeModel.qr RPipeModel.qw] in *.
      assert (N : e <> EClose _). { intros ->. destruct (rclose_busy _ _ _ R) as (_ & _ & _ & _ & _ & -> & _). destruct r; discriminate C. }
      pose proof (rstep_done _ _ _ _ R N W) as W0. cbn [AsyncModel.step] in A. rewrite (H W0) in A. discriminate A.
    - inv_step E. cbn [RPipeModel.qr RPipeModel.qw] in *. cbn [AsyncModel.step] in A. destruct (AsyncModel.g (qw s)) eqn:G; try discriminate A.
      destruct (AsyncModel.cancelled (qw s)); [|discriminate A]. injection A as <-. reflexivity.
  Qed.
  (** The timer of the last second runs only after Close was called *)
  Lemma timer_after : forall l, ~ In AsyncModel.CloseCall l -> forall w, arun AsyncModel.new l = Some w -> ~ In AsyncModel.GTimer l /\ AsyncModel.cancelled w = false /\
    match AsyncModel.g w with AsyncModel.GLast | AsyncModel.GLastWriting _ => False | _ => True end.
  Proof.
    induction l as [|e l IH] using rev_ind; intros N w R; [injection R as <-; repeat split; intros []|].
    rewrite AsyncProofs.run_snoc in R. destruct (arun AsyncModel.new l) as [w1|] eqn:E1; [|discriminate R].
    destruct (IH ltac:(intro K; apply N; apply in_or_app; left; exact K) w1 eq_refl) as (T & Ca & Gg). rewrite in_app_iff.
    destruct e as [r|bf r|v bf r|v|v r| | | | | |r x| |]; cbn [AsyncModel.step] in R;
      repeat match goal with
      | R : match ?x with _ => _ end = Some _ |- _ => destruct x eqn:?; try discriminate R
      end; injection R as <-; cbn [AsyncModel.cancelled AsyncModel.g] in *;
      try (exfalso; apply N; apply in_or_app; right; left; reflexivity); try contradiction; try congruence;
      (split; [intros [K|[K|[]]]; [exact (T K)|discriminate K]|split; [exact Ca|auto]]);
      repeat match goal with H : AsyncModel.g _ = _ |- _ => rewrite H in *; clear H end; auto; destruct x; exact Logic.I.
  Qed.
  (** One record, from the call to the return, with no help from anybody *)
  Lemma writes : forall w x b, AsyncModel.g w = AsyncModel.GWriting b -> wp _ x = WIdle -> closed (file _ x) = false ->
    let rec := nth b (AsyncModel.heap w) [] in
    exists l x' o, Forall (own Stat) l /\
      run (mkPipe _ w x) l = Some (mkPipe _ (AsyncModel.mkWriter (AsyncModel.heap w) (AsyncModel.callers w) (AsyncModel.queue w) AsyncModel.GSelect (AsyncModel.ws w) (AsyncModel.cancelled w) (AsyncModel.closed w)) x', o) /\
      wrote o = [rec] /\ results o = [(List.length rec, false)] /\ wp _ x' = WIdle /\ closed (file _ x') = false /\ asyncs l = [AsyncModel.GWrite rec AsyncModel.WOk].
  Proof.
    intros w x b G W Cl rec. destruct x as [f fl st sta wpx tm rpx]. cbn [wp file] in W, Cl. subst wpx.
    set (w' := AsyncModel.mkWriter (AsyncModel.heap w) (AsyncModel.callers w) (AsyncModel.queue w) AsyncModel.GSelect (AsyncModel.ws w) (AsyncModel.cancelled w) (AsyncModel.closed w)).
    assert (Gw : astep w (AsyncModel.GWrite rec AsyncModel.WOk) = Some w') by (cbn [AsyncModel.step]; rewrite G; fold rec; rewrite AsyncProofs.bytes_eqb_refl; reflexivity).
    assert (Sc : forall x, wp _ x = WIdle -> step (mkPipe _ w x) (QCall _ rec) = Some (mkPipe _ w (setW _ x (WStart rec)), [])).
    { intros x Wx. cbn [RPipeModel.step]. unfold taken. cbn [RPipeModel.qw RPipeModel.qr]. rewrite G. cbn [obind]. fold rec. rewrite AsyncProofs.bytes_eqb_refl.
      cbn [RotationModel.step]. unfold stepW. rewrite Wx. reflexivity. }
    (* from the open file on *)
    assert (M : forall f fl, closed fl = false -> exists l x' o, Forall (own Stat) l /\ run (mkPipe _ w (mkState Stat f fl st sta (WWrite rec) tm rpx)) l = Some (mkPipe _ w' x', o) /\
      wrote o = [rec] /\ results o = [(List.length rec, false)] /\ wp _ x' = WIdle /\ closed (file _ x') = false /\ asyncs l = [AsyncModel.GWrite rec AsyncModel.WOk]).
    { clear Cl f fl. intros f fl Cl. destruct (fileWrite f fl rec) as [f1 fl1] eqn:Fw.
      assert (Cl1 : closed fl1 = false) by (unfold fileWrite in Fw; injection Fw as _ <-; exact Cl).
      set (x1 := mkState Stat f1 fl1 st sta (WCheck rec (List.length rec) false) tm rpx).
      assert (S1 : step (mkPipe _ w (mkState Stat f fl st sta (WWrite rec) tm rpx)) (QStep _ (EWrite _ None)) = Some (mkPipe _ w x1, [OWrote rec])).
      { cbn [RPipeModel.step RPipeModel.qr RPipeModel.qw RotationModel.step stepW wp]. cbn [stepW wp file fs]. rewrite Cl, Fw. reflexivity. }
      destruct (st =? statusNormal) eqn:Sn.
      - exists [QStep _ (EWrite _ None); QStep _ (EWriter _); QReturn _ (EUpdate _ sta (Some false)) rec AsyncModel.WOk], (mkState Stat f1 fl1 st sta WIdle tm rpx), [OWrote rec; OUpdate; OReturn (List.length rec) false].
        split; [repeat constructor|]. split; [|repeat split; exact Cl1]. cbn [RPipeModel.run]. rewrite S1. cbn [obind].
        assert (S2 : step (mkPipe _ w x1) (QStep _ (EWriter _)) = Some (mkPipe _ w (setW _ x1 (WUpdate rec (List.length rec) false)), [])).
        { cbn [RPipeModel.step RPipeModel.qr RPipeModel.qw RotationModel.step stepW wp x1 status]. rewrite Sn. reflexivity. }
        rewrite S2. cbn [obind].
        assert (S3 : step (mkPipe _ w (setW _ x1 (WUpdate rec (List.length rec) false))) (QReturn _ (EUpdate _ sta (Some false)) rec AsyncModel.WOk)
          = Some (mkPipe _ w' (mkState Stat f1 fl1 st sta WIdle tm rpx), [OUpdate; OReturn (List.length rec) false])).
        { cbn [RPipeModel.step RPipeModel.qr RPipeModel.qw RotationModel.step stepW wp setW x1 obind resultOf last sameResult]. rewrite Gw. reflexivity. }
        rewrite S3. reflexivity.
      - exists [QStep _ (EWrite _ None); QReturn _ (EWriter _) rec AsyncModel.WOk], (mkState Stat f1 fl1 st sta WIdle tm rpx), [OWrote rec; OReturn (List.length rec) false].
        split; [repeat constructor|]. split; [|repeat split; exact Cl1]. cbn [RPipeModel.run]. rewrite S1. cbn [obind].
        assert (S3 : step (mkPipe _ w x1) (QReturn _ (EWriter _) rec AsyncModel.WOk) = Some (mkPipe _ w' (mkState Stat f1 fl1 st sta WIdle tm rpx), [OReturn (List.length rec) false])).
        { cbn [RPipeModel.step RPipeModel.qr RPipeModel.qw RotationModel.step stepW wp x1 status]. rewrite Sn. cbn [obind resultOf last sameResult]. rewrite Gw. reflexivity. }
        rewrite S3. reflexivity. }
    (* the file is opened again, or not *)
    assert (P : exists l f2 fl2 o, Forall (own Stat) l /\ closed fl2 = false /\ run (mkPipe _ w (mkState Stat f fl st sta WIdle tm rpx)) l = Some (mkPipe _ w (mkState Stat f2 fl2 st sta (WWrite rec) tm rpx), o) /\
      wrote o = [] /\ results o = [] /\ asyncs l = []).
    { destruct (st =? statusArchived) eqn:Sa.
      - set (x1 := mkState Stat f (mkFile (inode fl) (append fl) (pos fl) true) st sta (WOpen rec) tm rpx).
        assert (S1 : run (mkPipe _ w (mkState Stat f fl st sta WIdle tm rpx)) [QCall _ rec; QStep _ (EWriter _); QStep _ (EWriter _)] = Some (mkPipe _ w x1, [])).
        { cbn [RPipeModel.run]. rewrite Sc by reflexivity. cbn [obind RPipeModel.step RPipeModel.qr RPipeModel.qw RotationModel.step stepW wp setW status]. rewrite Sa. reflexivity. }
        destruct (find (links f) WritePath) as [i|] eqn:Fi.
        + exists ([QCall _ rec; QStep _ (EWriter _); QStep _ (EWriter _)] ++ [QStep _ (EOpen _ false)]), f, (mkFile i true 0 false), [OReopened].
          split; [repeat constructor|]. split; [reflexivity|]. split; [|repeat split]. rewrite run_app, S1.
          cbn [obind RPipeModel.run RPipeModel.step RPipeModel.qr RPipeModel.qw RotationModel.step stepW wp x1 fs]. rewrite Fi. reflexivity.
        + exists ([QCall _ rec; QStep _ (EWriter _); QStep _ (EWriter _)] ++ [QStep _ (EOpen _ false); QStep _ (EOpen _ false)]), (fst (create WritePath f)), (snd (create WritePath f)), [OReopened].
          split; [repeat constructor|]. split; [unfold create; rewrite Fi; reflexivity|]. split; [|repeat split]. rewrite run_app, S1.
          cbn [obind RPipeModel.run RPipeModel.step RPipeModel.qr RPipeModel.qw RotationModel.step stepW wp x1 fs]. rewrite Fi.
          cbn [obind resultOf last sameResult RPipeModel.qr RPipeModel.qw RotationModel.step stepW wp setW fs]. change (fs Stat x1) with f. destruct (create WritePath f). reflexivity.
      - exists [QCall _ rec; QStep _ (EWriter _)], f, fl, []. split; [repeat constructor|]. split; [exact Cl|]. split; [|repeat split].
        cbn [RPipeModel.run]. rewrite Sc by reflexivity. cbn [obind RPipeModel.step RPipeModel.qr RPipeModel.qw RotationModel.step stepW wp setW status]. rewrite Sa. reflexivity. }
    destruct P as (l1 & f2 & fl2 & o1 & L1 & C1 & R1 & W1 & Q1 & A1). destruct (M f2 fl2 C1) as (l2 & x' & o2 & L2 & R2 & W2 & Q2 & I2 & C2 & A2).
    exists (l1 ++ l2), x', (o1 ++ o2). split; [apply Forall_app; auto|]. split; [rewrite run_app, R1; cbn [obind]; rewrite R2; reflexivity|].
    rewrite RotationProofs.wrote_app, RotationProofs.results_app, W1, W2, Q1, Q2, asyncs_app, A1, A2. auto.
  Qed.
End Proofs.
