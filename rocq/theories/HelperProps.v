(** Property C128: the positions printed for failed checks. *)
From Verif Require Import Base HelperModel HelperSpec.
Open Scope Z_scope.
Open Scope list_scope.

Lemma streq_iff : forall a b, streq a b = true <-> a = b.
Proof. intros a b. unfold streq. destruct list_eq_dec; split; congruence. Qed.
Lemma exists_streq : forall x h, existsb (streq x) h = true <-> In x h.
Proof.
  intros x h. rewrite existsb_exists. split.
  - intros (y & I & E). apply streq_iff in E. now subst.
  - intros I. exists x. split; auto. now apply streq_iff.
Qed.
Lemma marked_skip : forall t f, marked t f -> streq (ffunc f) tRunner = false /\ existsb (streq (ffunc f)) (helpersOf t) = true.
Proof.
  intros t f [I N]. split; [|now apply exists_streq]. destruct (streq (ffunc f) tRunner) eqn:E; auto. apply streq_iff in E. contradiction.
Qed.
Lemma skip_pre : forall t pre prev post, Forall (marked t) pre -> skipHelpers (helpersOf t) prev (pre ++ post) = skipHelpers (helpersOf t) (last pre prev) post.
Proof.
  intros t pre prev post F. revert prev. induction F as [|f pre M _ IH]; intros prev; [reflexivity|].
  cbn [app skipHelpers]. destruct (marked_skip t f M) as [A B]. rewrite A, B, IH. f_equal. destruct pre as [|g pre]; [reflexivity|].
  change (last (f :: g :: pre) prev) with (last (g :: pre) prev). clear. revert g. induction pre as [|h pre IH]; intros g; [reflexivity|]. exact (IH h).
Qed.
Lemma not_in_skip : forall f h, ~ In (ffunc f) h -> existsb (streq (ffunc f)) h = false.
Proof. intros f h N. destruct (existsb _ h) eqn:E; auto. apply exists_streq in E. contradiction. Qed.
Lemma not_runner : forall f, ffunc f <> tRunner -> streq (ffunc f) tRunner = false.
Proof. intros f N. destruct (streq _ _) eqn:E; auto. apply streq_iff in E. contradiction. Qed.

Lemma blamed_skip : forall t S f, blamed t S f -> forall first prev, frameSkip t first prev S = f.
Proof.
  intros t S f H. induction H as [t pre f post F N R|h pre f r post F R|h creator parent pre r post f F R H IH]; intros first prev.
  - assert (E : skipHelpers (helpersOf t) prev (pre ++ f :: post) = Found f).
    { rewrite skip_pre by auto. cbn [skipHelpers]. now rewrite not_runner, not_in_skip. }
    destruct t; cbn [frameSkip]; cbn [helpersOf] in *; now rewrite E.
  - cbn [frameSkip]. replace (pre ++ f :: r :: post) with ((pre ++ [f]) ++ r :: post) by (now rewrite <- app_assoc).
    rewrite skip_pre by exact F. cbn [skipHelpers]. rewrite (proj2 (streq_iff _ tRunner) R). apply last_last.
  - cbn [frameSkip]. rewrite skip_pre by exact F. cbn [skipHelpers]. rewrite (proj2 (streq_iff _ tRunner) R). apply IH.
Qed.
Lemma blamed_cons : forall t S f g, marked t g -> blamed t S f -> blamed t (g :: S) f.
Proof.
  intros t S f g M H. destruct H as [t pre f post F N R|h pre f r post F R|h creator parent pre r post f F R H].
  - apply (bl_first t (g :: pre) f post); auto.
  - apply (bl_top h (g :: pre) f r post); auto. now constructor.
  - apply (bl_sub h creator parent (g :: pre) r post f); auto.
Qed.

(** * C128: test.Helper *)

(** What t prints is the position of the frame that is to blame *)
Theorem C128_blamed : forall t stack f, blamed t stack f -> position t stack = Some f.
Proof.
  intros t stack f H. unfold position. destruct stack as [|g stack].
  - inversion H as [? pre ? ? ? ? ? E|? pre ? ? ? ? ? E|? ? ? pre ? ? ? ? ? ? E]; now destruct pre.
  - f_equal. now apply blamed_skip.
Qed.
Print Assumptions C128_blamed.
(** Helper makes itself and the function that calls it helpers of the test, and nothing else; it does not panic *)
Theorem C128_helper : forall f stack t, Helper (f :: stack) t = Some (with_helpers t [ffunc f; test_helper]).
Proof. intros f stack [h|h c p]; reflexivity. Qed.
Print Assumptions C128_helper.
Example C128_helper_example : Helper [mkFrame (bs "a.F") (bs "a.go") 7; mkFrame (bs "a.G") (bs "a.go") 9] (Top [bs "b.H"]) = Some (Top [bs "a.F"; test_helper; bs "b.H"]).
Proof. reflexivity. Qed.

(** Two lists of helpers that hold the same functions *)
Lemma marked_with : forall t l f, In (ffunc f) l -> ffunc f <> tRunner -> marked (with_helpers t l) f.
Proof. intros [h|h c p] l f I N; split; auto; cbn; apply in_app_iff; auto. Qed.
Lemma with_with : forall t l l', with_helpers (with_helpers t l) l' = with_helpers t (l' ++ l).
Proof. intros [h|h c p] l l'; cbn; now rewrite app_assoc. Qed.
Definition same (l l' : list bytes) : Prop := forall x, In x l <-> In x l'.
Lemma blamed_same : forall t l l' S f, same l l' -> blamed (with_helpers t l) S f -> blamed (with_helpers t l') S f.
Proof.
  intros t l l' S f E H.
  assert (M : forall x, In x (helpersOf (with_helpers t l)) <-> In x (helpersOf (with_helpers t l'))).
  { intros x. destruct t; cbn; rewrite !in_app_iff, (E x); tauto. }
  assert (M' : forall pre, Forall (marked (with_helpers t l)) pre -> Forall (marked (with_helpers t l')) pre).
  { intros pre. apply Forall_impl. intros g [A B]. split; auto. now apply M. }
  remember (with_helpers t l) as u eqn:U. destruct H as [u pre f post F N R|h pre f r post F R|h creator parent pre r post f F R H].
  - apply bl_first; auto. now rewrite <- M.
  - destruct t as [h0|h0 c0 p0]; [|discriminate U]. apply bl_top; auto.
  - destruct t as [h0|h0 c0 p0]; [discriminate U|]. injection U as -> -> ->. apply bl_sub; auto.
Qed.

(** A way through a check that logs after it has called Helper *)
Inductive proper : bool -> list act -> Prop :=
| p_nil : proper true []
| p_assert b line name at_ l : proper b l -> proper b (AAssert line name at_ :: l)
| p_helper b line l : proper true l -> proper b (AHelper line :: l)
| p_log line l : proper true l -> proper true (ALog line :: l).
Lemma proper_logs : forall line n l, proper true l -> proper true (repeat (ALog line) n ++ l).
Proof. induction n; intros l H; [exact H|]. cbn. constructor. auto. Qed.

Lemma run_proper : forall c stack b l, proper b l -> funcName c <> tRunner -> forall t l0 f,
  (if b then same l0 [funcName c; test_helper] else l0 = []) -> blamed (with_helpers t [funcName c; test_helper]) stack f ->
  exists l1 out, runCheck c stack l (with_helpers t l0) = Some (with_helpers t l1, out) /\ same l1 [funcName c; test_helper] /\
    (forall p, In (false, p) out -> p = Some f) /\
    (~ In (bs "github.com/v2pro/plz/test/testify/assert.Fail") (helpersOf t) -> funcName c <> bs "github.com/v2pro/plz/test/testify/assert.Fail" ->
     forall p, In (true, p) out -> p = Some (mkFrame (bs "github.com/v2pro/plz/test/testify/assert.Fail") (bs "test/testify/assert/assertions.go") 238)) /\
    List.length (filter (fun x => negb (fst x)) out) = List.length (filter (fun a => match a with ALog _ => true | _ => false end) l).
Proof.
  intros c stack b l H NR. induction H as [|b line name at_ l H IH|b line l H IH|line l H IH]; intros t l0 f L B.
  - exists l0, []. split; [reflexivity|]. split; [exact L|]. split; [intros p []|]. split; [intros _ _ p []|reflexivity].
  - destruct (IH t l0 f L B) as (l1 & out & E & S1 & P & A & N). cbn [runCheck step]. rewrite E. eexists. eexists. split; [reflexivity|]. split; [exact S1|]. split; [|split].
    + intros p [X|X]; [discriminate X|]. now apply P.
    + intros F1 F2 p [X|X]; [|now apply A]. apply (f_equal snd) in X. cbn [snd] in X. subst p. apply C128_blamed.
      apply (bl_first _ [] (mkFrame (bs "github.com/v2pro/plz/test/testify/assert.Fail") (bs "test/testify/assert/assertions.go") 238)); [constructor| |discriminate].
      intros I. assert (I' : In (bs "github.com/v2pro/plz/test/testify/assert.Fail") (l0 ++ helpersOf t)) by (destruct t; exact I).
      apply in_app_iff in I'. destruct I' as [I'|I']; [|contradiction]. destruct b; [|subst; destruct I'].
      apply L in I'. destruct I' as [I'|[I'|[]]]; [congruence|discriminate I'].
    + cbn [app filter fst negb]. exact N.
  - cbn [runCheck step]. rewrite C128_helper. cbn [ffunc checkFrame].
    assert (L' : same ([funcName c; test_helper] ++ l0) [funcName c; test_helper]).
    { intros x. rewrite in_app_iff. destruct b; [rewrite (L x); tauto|subst l0; cbn; tauto]. }
    rewrite with_with. destruct (IH t _ f L' B) as (l1 & out & E & S1 & P & A & N). rewrite E. eexists. eexists. split; [reflexivity|]. cbn [app]. auto.
  - destruct (IH t l0 f L B) as (l1 & out & E & S1 & P & A & N). cbn [runCheck step]. rewrite E. eexists. eexists. split; [reflexivity|]. split; [exact S1|]. split; [|split].
    + intros p [X|X]; [|now apply P]. apply (f_equal snd) in X. cbn [snd] in X. subst p. apply C128_blamed. apply (blamed_same t [funcName c; test_helper] l0).
      * intros x. symmetry. apply L.
      * apply blamed_cons; auto. apply marked_with; auto. now left.
    + intros F1 F2 p [X|X]; [discriminate X|]. now apply A.
    + cbn [app filter fst negb List.length]. now rewrite N.
Qed.
Lemma checks_proper : forall n c path, In c (mustChecks n ++ shouldChecks n) -> In path (cpaths c) ->
  proper false path /\ funcName c <> tRunner /\ funcName c <> bs "github.com/v2pro/plz/test/testify/assert.Fail" /\
  filter (fun a => match a with ALog _ => true | _ => false end) path <> [].
Proof.
  intros n c path C P.
  assert (K : forall a line l, filter (fun a => match a with ALog _ => true | _ => false end) (a :: repeat (ALog line) n ++ [ALog l]) <> []).
  { intros a line l E. assert (I : In (ALog l) (filter (fun a => match a with ALog _ => true | _ => false end) (a :: repeat (ALog line) n ++ [ALog l]))).
    { apply filter_In. split; [|reflexivity]. right. apply in_app_iff. right. now left. }
    rewrite E in I. destruct I. }
  unfold mustChecks, shouldChecks, nilChecks, equalChecks in C. cbn [app] in C.
  repeat (destruct C as [<-|C]; [cbn [cpaths after app] in P; repeat (destruct P as [<-|P]; [
    split; [repeat first [apply p_assert|apply p_helper|apply p_log|apply p_nil|apply proper_logs]|split; [discriminate|split; [discriminate|first [apply K|discriminate]]]]|]); destruct P|]).
  destruct C.
Qed.

(** Every check of must and should but Panic reports its failures at the position to blame, once Helper has made it a helper: whatever the test, the helpers of it and
    the stack.  What assert says before is at the position of assert itself *)
Theorem C128_partial : forall n c path t stack f, In c (mustChecks n ++ shouldChecks n) -> In path (cpaths c) ->
  blamed (with_helpers t [funcName c; test_helper]) stack f ->
  exists t' out, runCheck c stack path t = Some (t', out) /\
    (forall x, In x (helpersOf t') <-> x = funcName c \/ x = test_helper \/ In x (helpersOf t)) /\
    (exists p, In (false, p) out) /\ (forall p, In (false, p) out -> p = Some f) /\
    (~ In (bs "github.com/v2pro/plz/test/testify/assert.Fail") (helpersOf t) ->
     forall p, In (true, p) out -> p = Some (mkFrame (bs "github.com/v2pro/plz/test/testify/assert.Fail") (bs "test/testify/assert/assertions.go") 238)).
Proof.
  intros n c path t stack f C P B. destruct (checks_proper n c path C P) as (H & R & R2 & L).
  destruct (run_proper c stack false path H R t [] f eq_refl B) as (l1 & out & E & S1 & Q & A & N).
  replace (with_helpers t []) with t in E by (destruct t; reflexivity). exists (with_helpers t l1), out. split; [exact E|]. split; [|split; [|split]]; auto.
  - intros x. assert (X : In x (helpersOf (with_helpers t l1)) <-> In x l1 \/ In x (helpersOf t)) by (destruct t; apply in_app_iff).
    rewrite X, (S1 x). cbn [In]. split; intros; intuition auto.
  - destruct (filter (fun x => negb (fst x)) out) as [|[b p] r] eqn:X; [destruct (filter _ path); [congruence|discriminate N]|].
    assert (I : In (b, p) (filter (fun x => negb (fst x)) out)) by (rewrite X; now left). apply filter_In in I. destruct I as [I Y]. destruct b; [discriminate Y|]. eauto.
Qed.
Print Assumptions C128_partial.
(** So that is the caller of the check, if it is no helper: the line whose text the report shows *)
Theorem C128_caller : forall n c path t f stack, In c (mustChecks n ++ shouldChecks n) -> In path (cpaths c) ->
  ~ In (ffunc f) (helpersOf t) -> ffunc f <> funcName c -> ffunc f <> test_helper -> ffunc f <> tRunner ->
  exists t' out, runCheck c (f :: stack) path t = Some (t', out) /\ forall p, In (false, p) out -> p = Some f.
Proof.
  intros n c path t f stack C P N N1 N2 N3.
  assert (B : blamed (with_helpers t [funcName c; test_helper]) (f :: stack) f).
  { apply (bl_first _ []); auto. intros I. assert (I' : In (ffunc f) ([funcName c; test_helper] ++ helpersOf t)) by (destruct t; exact I).
    apply in_app_iff in I'. destruct I' as [[I'|[I'|[]]]|I']; congruence. }
  destruct (C128_partial n c path t (f :: stack) f C P B) as (t' & out & E & _ & _ & Q & _). eauto.
Qed.
Print Assumptions C128_caller.

(** A test at a line, called by the runner; a helper of the user in between *)
Definition h_test (line : Z) : frame := mkFrame (bs "main.TestX.func1") (bs "x_test.go") line.
Definition h_runner : frame := mkFrame tRunner (bs "testing/testing.go") 991.
Definition h_wrap (line : Z) : frame := mkFrame (bs "main.checkAll") (bs "x_test.go") line.
Definition h_nil : check := mkCheck (bs "should") (bs "Nil") (bs "nil.go") (after [AAssert 11 (bs "Nil") 404] 14 17 20).
Example C128_example : In h_nil (mustChecks 2 ++ shouldChecks 2) /\ In [AAssert 11 (bs "Nil") 404; AHelper 14; ALog 20] (cpaths h_nil) /\
  blamed (with_helpers (Top [bs "main.checkAll"]) [funcName h_nil; test_helper]) [h_wrap 50; h_test 12; h_runner] (h_test 12) /\
  option_map snd (runCheck h_nil [h_wrap 50; h_test 12; h_runner] [AAssert 11 (bs "Nil") 404; AHelper 14; ALog 20] (Top [bs "main.checkAll"])) =
    Some [(true, Some (mkFrame (bs "github.com/v2pro/plz/test/testify/assert.Fail") (bs "test/testify/assert/assertions.go") 238)); (false, Some (h_test 12))] /\
  ~ In (ffunc (h_wrap 50)) (helpersOf (Top [])) /\ ffunc (h_wrap 50) <> funcName h_nil /\
  option_map snd (runCheck h_nil [h_wrap 50; h_test 12; h_runner] [AHelper 14; ALog 20] (Top [])) = Some [(false, Some (h_wrap 50))].
Proof.
  split; [apply in_app_iff; right; now left|]. split; [right; now left|]. split.
  - apply (bl_first _ [h_wrap 50] (h_test 12) [h_runner]); [|intros [I|[I|[I|[]]]]; discriminate I|discriminate].
    constructor; [|constructor]. split; [|discriminate]. right. right. now left.
  - split; [vm_compute; reflexivity|]. split; [intros []|]. split; [discriminate|]. vm_compute. reflexivity.
Qed.
(** In a subtest whose functions are all helpers, the call of Run *)
Example C128_sub_example : blamed (Sub [ffunc (h_test 1)] [mkFrame (bs "main.TestX") (bs "x_test.go") 80; h_runner] (Top [])) [h_test 12; h_runner] (mkFrame (bs "main.TestX") (bs "x_test.go") 80) /\
  blamed (Top [ffunc (h_test 1)]) [h_test 12; h_runner] (h_test 12).
Proof.
  assert (M : forall t, In (ffunc (h_test 1)) (helpersOf t) -> Forall (marked t) [h_test 12]) by (intros t I; constructor; [split; [exact I|discriminate]|constructor]).
  split.
  - apply (bl_sub _ _ _ [h_test 12] h_runner []); [apply M; now left|reflexivity|]. apply (bl_first _ []); [constructor|intros []|discriminate].
  - apply (bl_top _ [] (h_test 12) h_runner []); [apply M; now left|reflexivity].
Qed.

(** The functions that are made helpers, their files and the lines of their calls are those of the source *)
Theorem C128_places : forall n, Forall2 (fun c e => forall path a, In path (cpaths c) -> In a path ->
    exists line, In line (snd e) /\ line_of a = line /\ checkFrame c line = mkFrame (fst (fst e)) (snd (fst e)) line)
  (mustChecks n ++ shouldChecks n) (calls_of (bs "must") true ++ calls_of (bs "should") false).
Proof.
  intros n. unfold mustChecks, shouldChecks, nilChecks, equalChecks, calls_of. cbn [app].
  repeat (apply Forall2_cons; [intros path a P A; exists (line_of a); split; [|split; [reflexivity|reflexivity]]; cbn [cpaths after app] in P; cbn [snd]|]); [..|constructor].
  all: repeat (destruct P as [<-|P]; [|]); try destruct P; cbn [In app] in A; rewrite ?in_app_iff in A; repeat (destruct A as [A|A]; [|]); try (apply repeat_spec in A); try subst a; try (destruct A; fail); cbn [line_of]; cbn [In]; tauto.
Qed.
Print Assumptions C128_places.
Example C128_places_example : In ([AAssert 11 (bs "Nil") 404; AHelper 14; ALog 20]) (cpaths h_nil) /\
  checkFrame h_nil 14 = mkFrame (bs "github.com/v2pro/plz/test/should.Nil") (bs "test/should/nil.go") 14.
Proof. split; [right; now left|reflexivity]. Qed.

(** Panic reports at its own line, not at that of its caller: the function it defers is no helper *)
Theorem C128_panic_refuted : forall p t stack, p = bs "must" \/ p = bs "should" -> ~ In (funcName (panicCheck p) ++ bs ".func1") (helpersOf t) ->
  exists t' out, runCheck (panicCheck p) stack [AHelper 11; ADeferredAssert 19 (bs "NotNil") 379; ADeferred 22] t = Some (t', out) /\
    In (false, Some (mkFrame (funcName (panicCheck p) ++ bs ".func1") (bs "test/" ++ p ++ bs "/panic.go") 22)) out.
Proof.
  intros p t stack M N. cbn [runCheck step]. rewrite C128_helper. cbn [ffunc checkFrame app]. eexists. eexists. split; [reflexivity|]. right. left. f_equal.
  apply C128_blamed. apply (bl_first _ [] (deferredFrame (panicCheck p) 22)); [constructor| |].
  - intros I. assert (I' : In (funcName (panicCheck p) ++ bs ".func1") ([funcName (panicCheck p); test_helper] ++ helpersOf t)) by (destruct t; exact I).
    destruct I' as [I'|[I'|I']]; [|destruct M; subst p; discriminate I'|contradiction].
    rewrite <- (app_nil_r (funcName (panicCheck p))) in I' at 1. apply app_inv_head in I'. discriminate I'.
  - destruct M; subst p; discriminate.
Qed.
Print Assumptions C128_panic_refuted.
Example C128_panic_example : ~ In (funcName (panicCheck (bs "must")) ++ bs ".func1") (helpersOf (Top [])) /\
  option_map snd (runCheck (panicCheck (bs "must")) [h_test 12; h_runner] [AHelper 11; ADeferred 22] (Top [])) =
  Some [(false, Some (mkFrame (bs "github.com/v2pro/plz/test/must.Panic.func1") (bs "test/must/panic.go") 22))].
Proof. split; [intros []|vm_compute; reflexivity]. Qed.

(** must.JsonEqual with a variable that has two values: Equal, called by bind, reports at the line of bind *)
Definition h_bind : frame := mkFrame (bs "github.com/v2pro/plz/test/must.variables.bind") (bs "test/must/json.go") 87.
Definition h_json : list frame := [h_bind; mkFrame (bs "github.com/v2pro/plz/test/must.substituteVars") (bs "test/must/json.go") 127;
  mkFrame (bs "github.com/v2pro/plz/test/must.JsonEqual") (bs "test/must/json.go") 39].
Definition h_equal : check := mkCheck (bs "must") (bs "Equal") (bs "equal.go") (after [] 15 18 21).
Theorem C128_bind_refuted : forall t stack, ~ In (ffunc h_bind) (helpersOf t) ->
  exists t' out, runCheck h_equal (h_json ++ stack) [AHelper 15; ALog 21] t = Some (t', out) /\ out <> [] /\ forall p, In (false, p) out -> p = Some h_bind.
Proof.
  intros t stack N. assert (C : In h_equal (mustChecks 0 ++ shouldChecks 0)) by (do 4 right; now left).
  destruct (C128_caller 0 h_equal [AHelper 15; ALog 21] t h_bind (tl h_json ++ stack) C ltac:(right; now left) N ltac:(discriminate) ltac:(discriminate) ltac:(discriminate)) as (t' & out & E & P).
  exists t', out. split; [exact E|]. split; [|exact P]. cbn [runCheck step] in E. rewrite C128_helper in E. injection E as _ <-. discriminate.
Qed.
Print Assumptions C128_bind_refuted.
Example C128_bind_example : ~ In (ffunc h_bind) (helpersOf (Top [bs "github.com/v2pro/plz/test/must.JsonEqual"; test_helper])).
Proof. intros [I|[I|[]]]; discriminate I. Qed.
Definition C128_full : Prop := forall n c path t f stack, In c (panicCheck (bs "must") :: panicCheck (bs "should") :: mustChecks n ++ shouldChecks n) -> In path (cpaths c) ->
  ~ In (ffunc f) (helpersOf t) -> ffunc f <> funcName c -> ffunc f <> test_helper -> ffunc f <> tRunner ->
  exists t' out, runCheck c (f :: stack) path t = Some (t', out) /\ forall p, In (false, p) out -> p = Some f.
Theorem C128_full_refuted : ~ C128_full.
Proof.
  intros F. destruct (F 0%nat (panicCheck (bs "must")) [AHelper 11; ADeferredAssert 19 (bs "NotNil") 379; ADeferred 22] (Top []) (h_test 12) [h_runner]) as (t' & out & E & P).
  - now left.
  - right. now left.
  - intros [].
  - discriminate.
  - discriminate.
  - discriminate.
  - destruct (C128_panic_refuted (bs "must") (Top []) [h_test 12; h_runner] (or_introl eq_refl) ltac:(intros [])) as (t2 & out2 & E2 & I).
    assert (Y : (t2, out2) = (t', out)) by congruence. apply (f_equal snd) in Y. cbn [snd] in Y. subst out2. apply P in I. discriminate I.
Qed.
Print Assumptions C128_full_refuted.
