(** C68, C69: the JSON assertions of test/should and test/must. *)
From Coq Require Import Permutation.
From Verif Require Import Base AssertModel AssertSpec AssertProofs MustProofs.

(** * should.JsonEqual *)
(** Passes exactly when the documents are equal up to members ANYTHING and the expected one has no null outside of arrays; panics exactly at a null or a missing member; fails otherwise. *)
Theorem C68_result : forall decode order expected json actual e a, decode expected = Some e -> decode json = Some a -> actual = AString json \/ actual = ABytes json ->
  wf e -> wf a -> (forall p l, Permutation (order p l) l) ->
  (shouldJsonEqual decode order expected actual = Passes <-> maskable e /\ accepts e a) /\ (shouldJsonEqual decode order expected actual = Panics <-> stuck e a).
Proof.
  intros decode order expected json actual e a De Da Ac We Wa PO.
  assert (R : shouldJsonEqual decode order expected actual = match maskAnything order (depth e) [] e a with None => Panics | Some a' => if docEqual e a' then Passes else Fails end).
  { unfold shouldJsonEqual. rewrite De. destruct Ac as [-> | ->]; rewrite Da; reflexivity. }
  rewrite R. pose proof (mask_ok order PO (depth e) [] e a (le_n _) We Wa) as M. destruct (maskAnything order (depth e) [] e a) as [a'|].
  - destruct M as (M & Wa' & NS). rewrite <- (masked_same e a a' M We Wa Wa'), <- (docEqual_iff e a' We Wa'). destruct (docEqual e a'); split; split; try tauto; try discriminate.
  - split; [|tauto]. split; [discriminate|]. intros [Mk Ac']. exfalso. clear - Mk Ac' M. revert Mk Ac'. induction M as [a|l m k x G N Gm|l m k x y G N Gm St IH]; intros Mk Ac'.
    + inversion Mk; congruence.
    + inversion Ac' as [? ? K H|? ? NM _]; subst; [|destruct (NM I)]. assert (Q : get k l <> Some ANYTHING) by congruence. apply (proj2 (K k Q)) in Gm. congruence.
    + inversion Ac' as [? ? K H|? ? NM _]; subst; [|destruct (NM I)]. inversion Mk as [? Hk|? NM]; subst; [|destruct (NM I)]. apply IH; eauto.
Qed.
(** The order in which Go goes through the map does not matter. *)
Theorem C68_order : forall decode o1 o2 expected actual, (forall s d, decode s = Some d -> wf d) -> (forall p l, Permutation (o1 p l) l) -> (forall p l, Permutation (o2 p l) l) ->
  shouldJsonEqual decode o1 expected actual = shouldJsonEqual decode o2 expected actual.
Proof.
  intros decode o1 o2 expected actual W P1 P2. destruct (decode expected) as [e|] eqn:De; [|unfold shouldJsonEqual; rewrite De; reflexivity].
  assert (G : forall json, actual = AString json \/ actual = ABytes json -> shouldJsonEqual decode o1 expected actual = shouldJsonEqual decode o2 expected actual).
  { intros json Ac. destruct (decode json) as [a|] eqn:Da; [|unfold shouldJsonEqual; rewrite De; destruct Ac as [-> | ->]; rewrite Da; reflexivity].
    destruct (C68_result decode o1 expected json actual e a De Da Ac (W _ _ De) (W _ _ Da) P1) as [A1 B1]. destruct (C68_result decode o2 expected json actual e a De Da Ac (W _ _ De) (W _ _ Da) P2) as [A2 B2].
    rewrite <- A1 in A2. rewrite <- B1 in B2. destruct (shouldJsonEqual decode o1 expected actual), (shouldJsonEqual decode o2 expected actual); try reflexivity; exfalso;
      destruct A2 as [X1 X2], B2 as [Y1 Y2]; (discriminate (X1 eq_refl) || discriminate (X2 eq_refl) || discriminate (Y1 eq_refl) || discriminate (Y2 eq_refl)). }
  destruct actual as [s|s|[m|]]; [apply (G s); auto|apply (G s); auto| |]; unfold shouldJsonEqual; rewrite De; reflexivity.
Qed.
(** A text that is no JSON, or a value that has none, fails; every other value panics. *)
Theorem C68_other : forall decode order expected actual,
  (decode expected = None -> shouldJsonEqual decode order expected actual = Fails) /\
  (forall e, decode expected = Some e ->
    (forall s, decode s = None -> shouldJsonEqual decode order expected (AString s) = Fails /\ shouldJsonEqual decode order expected (ABytes s) = Fails) /\
    shouldJsonEqual decode order expected (AOther None) = Fails /\ forall json, shouldJsonEqual decode order expected (AOther (Some json)) = Panics).
Proof.
  intros decode order expected actual. unfold shouldJsonEqual. split; [intros ->; reflexivity|]. intros e ->. split; [intros s ->; split; reflexivity|]. split; reflexivity.
Qed.

(** Texts for the examples: the first one stands for e, the others for a *)
Definition E' : bytes := bs "E".
Definition docs (e a : doc) : bytes -> option doc := fun s => if list_eq_dec Z.eq_dec s E' then Some e else Some a.
Definition member (k : string) (v : doc) : bytes * doc := (bs k, v).
Definition text (s : string) : doc := DStr (bs s).
Notation same_order := (fun _ l => l).
Definition e1 : doc := DMap [member "id" (text "ANYTHING"); member "x" (DMap [member "y" (DNum 1); member "t" (text "ANYTHING")])].
Definition a1 : doc := DMap [member "x" (DMap [member "t" (DSlice [DNull]); member "y" (DNum 1)]); member "id" (DNum 7)].
Definition a2 : doc := DMap [member "x" (DMap [member "t" (DSlice [DNull]); member "y" (DNum 2)]); member "id" (DNum 7)].
Ltac wf_tac := repeat (constructor; cbn; try (intuition discriminate)).
Example C68_result_example : wf e1 /\ wf a1 /\ shouldJsonEqual (docs e1 a1) same_order E' (AString (bs "A")) = Passes /\ shouldJsonEqual (docs e1 a1) (fun _ l => rev l) E' (ABytes (bs "A")) = Passes /\
  shouldJsonEqual (docs e1 a2) same_order E' (AString (bs "A")) = Fails.
Proof. split; [wf_tac|]. split; [wf_tac|]. vm_compute. auto. Qed.
Example C68_order_example : forall s d, docs e1 a1 s = Some d -> wf d.
Proof. intros s d. unfold docs. destruct (list_eq_dec Z.eq_dec s E'); intros [= <-]; wf_tac. Qed.
Example C68_other_example : shouldJsonEqual (fun _ => None) same_order E' (AString (bs "A")) = Fails /\ shouldJsonEqual (docs e1 a1) same_order E' (AOther (Some (bs "A"))) = Panics /\
  shouldJsonEqual (docs e1 a1) same_order E' (AOther None) = Fails.
Proof. vm_compute. auto. Qed.

(** ** The check tells equal from different documents, whatever the argument is: refuted *)
Definition C68_full : Prop := forall decode order expected actual json e a, decode expected = Some e -> decode json = Some a -> actual = AString json \/ actual = ABytes json \/ actual = AOther (Some json) ->
  wf e -> wf a -> (forall p l, Permutation (order p l) l) -> (same e a -> shouldJsonEqual decode order expected actual = Passes) /\ shouldJsonEqual decode order expected actual <> Panics.
(** A value instead of its JSON panics, also if it is the expected one; a null and a missing member panic; ANYTHING in an array matches only itself; as a member it matches nothing at all. *)
Theorem C68_refuted :
  shouldJsonEqual (docs (DNum 1) (DNum 1)) same_order E' (AOther (Some (bs "A"))) = Panics /\
  shouldJsonEqual (docs (DMap [member "a" DNull]) (DMap [member "a" DNull])) same_order E' (AString (bs "A")) = Panics /\
  shouldJsonEqual (docs (DMap [member "a" (DNum 1)]) (DMap [])) same_order E' (AString (bs "A")) = Panics /\
  shouldJsonEqual (docs (DSlice [text "ANYTHING"]) (DSlice [DNum 1])) same_order E' (AString (bs "A")) = Fails /\
  shouldJsonEqual (docs (DMap [member "a" (text "ANYTHING")]) (DMap [])) same_order E' (AString (bs "A")) = Passes.
Proof. vm_compute. auto 6. Qed.
Theorem C68_full_refuted : ~ C68_full.
Proof.
  intro H. specialize (H (docs (DNum 1) (DNum 1)) same_order E' (AOther (Some (bs "A"))) (bs "A") (DNum 1) (DNum 1) eq_refl eq_refl (or_intror (or_intror eq_refl)) ltac:(wf_tac) ltac:(wf_tac) ltac:(auto)).
  destruct H as [_ H]. apply H. apply C68_refuted.
Qed.
(** Without null, ANYTHING and missing members it does. *)
Inductive ordinary : doc -> Prop :=
| ordinary_map : forall l, (forall k x, get k l = Some x -> ordinary x) -> ordinary (DMap l)
| ordinary_other : forall d, ~ is_map d -> d <> DNull -> d <> ANYTHING -> ordinary d.
Lemma ordinary_maskable : forall e, ordinary e -> maskable e.
Proof.
  induction e as [|b|z|s|l IH|l IH] using doc_rect'; intro O; inversion O as [? H|? N1 N2 N3]; subst; try (apply maskable_other; assumption).
  - constructor. intros k x G. rewrite Forall_forall in IH. apply (IH _ (get_some_in _ _ _ G)). eauto.
Qed.
Lemma ordinary_accepts : forall e, ordinary e -> forall a, accepts e a <-> same e a.
Proof.
  induction e as [|b|z|s|l IH|l IH] using doc_rect'; intros O a; inversion O as [? H|? N1 N2 N3]; subst;
    try (split; [intro Ac; inversion Ac as [|? ? _ S']; subst; exact S'|intro S'; apply accepts_same; assumption]); try (destruct (N1 I)).
  assert (NA : forall k x, get k l = Some x -> x <> ANYTHING).
  { intros k x G ->. specialize (H _ _ G). inversion H. congruence. }
  rewrite Forall_forall in IH. split.
  - intro Ac. inversion Ac as [? m K Hm|? ? NM _]; subst; [|destruct (NM I)]. constructor.
    + intro k. apply K. intro Q. exact (NA _ _ Q eq_refl).
    + intros k x y G Gy. apply (IH _ (get_some_in _ _ _ G)); [exact (H _ _ G)|]. exact (Hm _ _ _ G (NA _ _ G) Gy).
  - intro S'. inversion S' as [| | | | |? m K Hm]; subst. constructor.
    + intros k _. apply K.
    + intros k x y G _ Gy. apply (IH _ (get_some_in _ _ _ G)); [exact (H _ _ G)|exact (Hm _ _ _ G Gy)].
Qed.
Theorem C68_partial : forall decode order expected json e a, decode expected = Some e -> decode json = Some a -> wf e -> wf a -> (forall p l, Permutation (order p l) l) -> ordinary e ->
  (shouldJsonEqual decode order expected (AString json) = Passes <-> same e a).
Proof.
  intros decode order expected json e a De Da We Wa PO O. rewrite (proj1 (C68_result decode order expected json (AString json) e a De Da (or_introl eq_refl) We Wa PO)).
  rewrite (ordinary_accepts e O). pose proof (ordinary_maskable e O). tauto.
Qed.
Example C68_partial_example : ordinary (DMap [member "a" (DSlice [DNull; text "ANYTHING"])]) /\
  shouldJsonEqual (docs (DMap [member "a" (DSlice [DNull; text "ANYTHING"])]) (DMap [member "a" (DSlice [DNull; text "ANYTHING"])])) same_order E' (AString (bs "A")) = Passes.
Proof.
  split; [|vm_compute; reflexivity]. constructor. intros k x G. cbn [get member] in G. destruct (list_eq_dec Z.eq_dec (bs "a") k); [|discriminate G]. injection G as <-. apply ordinary_other; [intros []|discriminate|discriminate].
Qed.

(** * must.JsonEqual *)
(** For an expected document whose keys are no variables, it ends, and passes exactly when there are values for the variables that make the documents equal.  The order of the keys does not matter. *)
Theorem C69_result : forall decode order fuel expected json actual e a, decode expected = Some e -> decode json = Some a -> actual = AString json \/ actual = ABytes json ->
  wf e -> wf a -> plain e -> (forall i l, Permutation (order i l) l) -> (depth e <= fuel)%nat ->
  mustJsonEqual decode order fuel expected actual <> None /\ (mustJsonEqual decode order fuel expected actual = Some Passes <-> exists env, matches env e a).
Proof.
  intros decode order fuel expected json actual e a De Da Ac We Wa Pe PO F.
  pose proof (must_ok e a order fuel We Wa Pe PO F) as M.
  assert (R : mustJsonEqual decode order fuel expected actual =
    match substituteVars order (depth e + depth a) fuel (mkState (heapOf e a) [] 0) (load true [] e) (load false [] a) with
    | Done s => Some (if deepEqual (depth e + depth a) (hp s) (load true [] e) (load false [] a) then Passes else Fails)
    | Panicked => Some Panics | Fatal => Some Fails | Unfinished => None end).
  { unfold mustJsonEqual. rewrite De. destruct Ac as [-> | ->]; rewrite Da; reflexivity. }
  rewrite R. destruct (substituteVars order (depth e + depth a) fuel (mkState (heapOf e a) [] 0) (load true [] e) (load false [] a)) as [s| | |]; try (split; [discriminate|split; [discriminate|intro H; destruct (M H)]]).
  - rewrite <- M. split; [discriminate|]. destruct (deepEqual (depth e + depth a) (hp s) (load true [] e) (load false [] a)); split; try reflexivity; discriminate.
  - destruct M.
Qed.
(** A text that is no JSON, or a value that has none, fails; every other value panics. *)
Theorem C69_other : forall decode order fuel expected actual,
  (decode expected = None -> mustJsonEqual decode order fuel expected actual = Some Fails) /\
  (forall e, decode expected = Some e ->
    (forall s, decode s = None -> mustJsonEqual decode order fuel expected (AString s) = Some Fails /\ mustJsonEqual decode order fuel expected (ABytes s) = Some Fails) /\
    mustJsonEqual decode order fuel expected (AOther None) = Some Fails /\ forall json, mustJsonEqual decode order fuel expected (AOther (Some json)) = Some Panics).
Proof.
  intros decode order fuel expected actual. unfold mustJsonEqual. split; [intros ->; reflexivity|]. intros e ->. split; [intros s ->; split; reflexivity|]. split; reflexivity.
Qed.
Definition e2 : doc := DMap [member "id" (text "{id}"); member "at" (text "{ANYTHING}"); member "list" (DSlice [DMap [member "parent" (text "{id}")]; text "{id}"])].
Definition a3 : doc := DMap [member "list" (DSlice [DMap [member "parent" (DNum 7)]; text "{id}"]); member "id" (DNum 7)].
Definition a4 : doc := DMap [member "list" (DSlice [DMap [member "parent" (DNum 8)]; text "{id}"]); member "id" (DNum 7)].
Lemma not_braces : forall s, isVar s = false -> ~ braces s.
Proof. intros s H B. apply isVar_iff in B. congruence. Qed.
Ltac plain_tac := unfold member, text; repeat match goal with
  | |- plain (DMap _) => constructor; let k := fresh in let x := fresh in let G := fresh in intros k x G; cbn [get] in G;
      repeat match type of G with context [list_eq_dec Z.eq_dec ?u k] => destruct (list_eq_dec Z.eq_dec u k) as [<-|] end; try discriminate G; injection G as <-; (split; [apply not_braces; reflexivity|])
  | |- plain (DSlice _) => apply plain_slice; repeat apply Forall_cons; try apply Forall_nil
  | |- plain _ => apply plain_other; discriminate
  end.
Example C69_result_example : plain e2 /\ mustJsonEqual (docs e2 a3) same_order 10 E' (AString (bs "A")) = Some Passes /\ mustJsonEqual (docs e2 a3) (fun _ l => rev l) 10 E' (ABytes (bs "A")) = Some Passes /\
  mustJsonEqual (docs e2 a4) same_order 10 E' (AString (bs "A")) = Some Fails.
Proof. split; [unfold e2, text; plain_tac|]. vm_compute. auto. Qed.
Example C69_other_example : mustJsonEqual (docs e2 a3) same_order 10 E' (AOther (Some (bs "A"))) = Some Panics /\ mustJsonEqual (fun _ => None) same_order 10 E' (AString (bs "A")) = Some Fails.
Proof. vm_compute. auto. Qed.

(** ** With variables for keys, too, the check ends, and does not depend on the order of the keys: refuted *)
Definition C69_full : Prop := forall e a, wf e -> wf a ->
  (forall order, (forall i l, Permutation (order i l) l) -> exists fuel, mustJsonEqual (docs e a) order fuel E' (AString (bs "A")) <> None) /\
  (forall o1 o2 fuel r1 r2, (forall i l, Permutation (o1 i l) l) -> (forall i l, Permutation (o2 i l) l) ->
    mustJsonEqual (docs e a) o1 fuel E' (AString (bs "A")) = Some r1 -> mustJsonEqual (docs e a) o2 fuel E' (AString (bs "A")) = Some r2 -> r1 = r2).
Definition keys_e : doc := DMap [member "x" (text "{v}"); member "y" (text "{w}"); member "{v}" (DNum 1); member "{w}" (DNum 2)].
Definition keys_a : doc := DMap [member "x" (text "k"); member "y" (text "k"); member "k" (DNum 2)].
Definition swapped (i : nat) (l : list bytes) : list bytes := match l with [a; b; c; d] => [b; a; d; c] | _ => l end.
Lemma swapped_perm : forall i l, Permutation (swapped i l) l.
Proof. intros i [|a [|b [|c [|d [|]]]]]; try apply Permutation_refl. eapply perm_trans; [apply perm_swap|]. do 2 apply perm_skip. apply perm_swap. Qed.
(** Two variables that stand for the same key: the last one put counts. *)
Theorem C69_order_refuted : wf keys_e /\ wf keys_a /\ mustJsonEqual (docs keys_e keys_a) same_order 20 E' (AString (bs "A")) = Some Passes /\
  mustJsonEqual (docs keys_e keys_a) swapped 20 E' (AString (bs "A")) = Some Fails.
Proof. split; [wf_tac|]. split; [wf_tac|]. vm_compute. auto. Qed.
(** Equal documents with null panic; so does a shorter array, and a variable that is no string for a key; {ANYTHING} below a variable for a key does not match anything else. *)
Theorem C69_panics_refuted :
  mustJsonEqual (docs (DSlice [DNull]) (DSlice [DNull])) same_order 20 E' (AString (bs "A")) = Some Panics /\
  mustJsonEqual (docs (DSlice [DNum 1]) (DSlice [])) same_order 20 E' (AString (bs "A")) = Some Panics /\
  mustJsonEqual (docs (DMap [member "x" (text "{v}"); member "{v}" (DNum 1)]) (DMap [member "x" (DNum 1); member "1" (DNum 1)])) same_order 20 E' (AString (bs "A")) = Some Panics /\
  mustJsonEqual (docs (DMap [member "x" (text "{v}"); member "{v}" (text "{ANYTHING}")]) (DMap [member "x" (text "k"); member "k" (DNum 1)])) same_order 20 E' (AString (bs "A")) = Some Fails.
Proof. vm_compute. auto. Qed.
Definition self : doc := DMap [member "{v}" (DMap [member "y" (text "{v}")])].
Definition inner : list place := [PKey (bs "{v}")].
Definition looping (s : state) : Prop :=
  get (bs "{v}") (vars s) = Some (mkVariable HNull [mkClosure (true, []) (false, []) (bs "{v}")]) /\
  get (bs "{v}") (hp s (true, [])) = Some (HMap (true, inner)) /\ get (bs "{v}") (hp s (false, [])) = Some (HMap (false, inner)) /\
  hp s (true, inner) = [(bs "y", HStr (bs "{v}"))] /\ hp s (false, inner) = [(bs "y", HStr (bs "{v}"))].
Lemma loops : forall order size, (forall i l, Permutation (order i l) l) -> forall fuel s, looping s -> substituteVars order size fuel s (HMap (true, inner)) (HMap (false, inner)) = Unfinished.
Proof.
  intros order size PO fuel. induction fuel as [fuel IH] using lt_wf_ind. intros s (V1 & H1 & H2 & H3 & H4). destruct fuel as [|fuel]; [reflexivity|]. cbn [substituteVars].
  rewrite H3. change (map fst [(bs "y", HStr (bs "{v}"))]) with [bs "y"]. rewrite (Permutation_length_1_inv (Permutation_sym (PO (visits s) [bs "y"]))).
  change (isVar (bs "y")) with false. cbn iota. cbn [hp]. rewrite H3. change (get (bs "y") [(bs "y", HStr (bs "{v}"))]) with (Some (HStr (bs "{v}"))). cbn iota.
  destruct (list_eq_dec Z.eq_dec (bs "{v}") (bs "{ANYTHING}")) as [Q|_]; [discriminate Q|]. rewrite H4. change (get (bs "y") [(bs "y", HStr (bs "{v}"))]) with (Some (HStr (bs "{v}"))). cbn iota.
  change (isVar (bs "{v}")) with true. cbn iota. change (put (bs "y") (HStr (bs "{v}")) [(bs "y", HStr (bs "{v}"))]) with [(bs "y", HStr (bs "{v}"))].
  set (s1 := setMap (mkState (hp s) (vars s) (S (visits s))) (true, inner) [(bs "y", HStr (bs "{v}"))]).
  assert (L : looping s1).
  { unfold s1, looping, setMap. cbn [hp vars]. repeat match goal with |- context [addr_eq ?x ?y] => destruct (addr_eq x y) as [Q|Q]; try discriminate Q; try (destruct (Q eq_refl)) end. auto. }
  assert (B : bind order size fuel s1 (bs "{v}") (HStr (bs "{v}")) = Unfinished); [|change ((fun o : outcome => match o with Done s => Done s | o => o end) (bind order size fuel s1 (bs "{v}") (HStr (bs "{v}"))) = Unfinished); rewrite B; reflexivity].
  destruct L as (V1' & H1' & H2' & L). destruct fuel as [|fuel]; [reflexivity|]. cbn [bind]. rewrite V1'. cbn [subs value].
  assert (C : call order size fuel s1 (mkClosure (true, []) (false, []) (bs "{v}")) (HStr (bs "{v}")) = Unfinished); [|change ((match (match call order size fuel s1 (mkClosure (true, []) (false, []) (bs "{v}")) (HStr (bs "{v}")) with Done s => Done s | o => o end) with Done s => Done (setVar s (bs "{v}") (mkVariable (HStr (bs "{v}")) [])) | o => o end) = Unfinished); rewrite C; reflexivity].
  destruct fuel as [|fuel]; [reflexivity|]. cbn [call cExpected cActual cKey]. rewrite H1', H2'.
  assert (D : substituteVars order size fuel s1 (HMap (true, inner)) (HMap (false, inner)) = Unfinished) by (apply IH; [lia|unfold looping; auto]).
  change (match substituteVars order size fuel s1 (HMap (true, inner)) (HMap (false, inner)) with Done s => Done (setMap (setMap s (true, []) (del (bs "{v}") (hp s (true, [])))) (true, []) (put (bs "{v}") (HMap (true, inner)) (hp (setMap s (true, []) (del (bs "{v}") (hp s (true, [])))) (true, [])))) | o => o end = Unfinished).
  rewrite D. reflexivity.
Qed.
(** A variable whose name is its own value: the recursion never ends. *)
Theorem C69_ends_refuted : wf self /\ forall order fuel, (forall i l, Permutation (order i l) l) -> mustJsonEqual (docs self self) order fuel E' (AString (bs "A")) = None.
Proof.
  split; [wf_tac|]. intros order fuel PO. unfold mustJsonEqual.
  change (docs self self E') with (Some self). change (docs self self (bs "A")) with (Some self). cbv zeta iota.
  assert (R : substituteVars order (depth self + depth self) fuel (mkState (heapOf self self) [] 0) (load true [] self) (load false [] self) = Unfinished); [|rewrite R; reflexivity].
  change (load true [] self) with (HMap (true, [])). change (load false [] self) with (HMap (false, [])). destruct fuel as [|fuel]; [reflexivity|]. cbn [substituteVars hp vars visits].
  change (heapOf self self (true, [])) with [(bs "{v}", HMap (true, inner))]. change (map fst [(bs "{v}", HMap (true, inner))]) with [bs "{v}"].
  rewrite (Permutation_length_1_inv (Permutation_sym (PO 0%nat [bs "{v}"]))). change (isVar (bs "{v}")) with true. cbn iota. destruct fuel as [|fuel]; [reflexivity|].
  match goal with |- ?X = _ => change X with (match sub order (depth self + depth self) (S fuel) (mkState (heapOf self self) [] 1) (bs "{v}") (mkClosure (true, []) (false, []) (bs "{v}")) with
    | Done s => match get (bs "{v}") (hp s (true, [])), get (bs "{v}") (hp s (false, [])) with
      | Some (HMap x), Some y => (fun o : outcome => match o with Done s => Done s | o => o end) (substituteVars order (depth self + depth self) (S fuel) s (HMap x) y) | _, _ => Panicked end
    | o => o end) end.
  change (sub order (depth self + depth self) (S fuel) (mkState (heapOf self self) [] 1) (bs "{v}") (mkClosure (true, []) (false, []) (bs "{v}"))) with
    (Done (mkState (heapOf self self) [(bs "{v}", mkVariable HNull [mkClosure (true, []) (false, []) (bs "{v}")])] 1)).
  cbn iota. cbn [hp]. change (get (bs "{v}") (heapOf self self (true, []))) with (Some (HMap (true, inner))). change (get (bs "{v}") (heapOf self self (false, []))) with (Some (HMap (false, inner))). cbn iota.
  rewrite loops; [reflexivity|exact PO|]. vm_compute. auto.
Qed.
Theorem C69_full_refuted : ~ C69_full.
Proof.
  intro H. destruct C69_order_refuted as (W1 & W2 & R1 & R2). destruct (H keys_e keys_a W1 W2) as [_ D].
  specialize (D same_order swapped 20%nat _ _ ltac:(intros; apply Permutation_refl) swapped_perm R1 R2). discriminate D.
Qed.

Print Assumptions C68_result.
Print Assumptions C68_order.
Print Assumptions C68_other.
Print Assumptions C68_refuted.
Print Assumptions C68_full_refuted.
Print Assumptions C68_partial.
Print Assumptions C69_result.
Print Assumptions C69_other.
Print Assumptions C69_order_refuted.
Print Assumptions C69_panics_refuted.
Print Assumptions C69_ends_refuted.
Print Assumptions C69_full_refuted.
