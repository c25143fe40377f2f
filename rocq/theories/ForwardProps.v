(** Property C129: the methods of Assertions. *)
From Verif Require Import Base ForwardModel.
Open Scope list_scope.

(** * The tables *)
Lemma nameEq_iff : forall a b, nameEq a b = true <-> a = b.
Proof. intros a b. unfold nameEq. destruct list_eq_dec; split; congruence. Qed.
Definition param_dec : forall a b : param, {a = b} + {a <> b}.
Proof. decide equality; apply list_eq_dec, Z.eq_dec. Defined.
Definition expr_dec : forall a b : expr, {a = b} + {a <> b}.
Proof. decide equality. apply list_eq_dec, Z.eq_dec. Defined.
Definition key_dec : forall a b : bytes * list param, {a = b} + {a <> b}.
Proof. decide equality; [apply list_eq_dec, param_dec|apply list_eq_dec, Z.eq_dec]. Defined.
Definition same {A} (d : forall a b : A, {a = b} + {a <> b}) (a b : A) : bool := if d a b then true else false.
Lemma same_eq : forall A d (a b : A), same d a b = true -> a = b.
Proof. intros A d a b. unfold same. destruct (d a b); [auto|discriminate]. Qed.

Definition tParam : param := (bs "t", bs "TestingT").
Definition forwards (m : method) : bool :=
  match find (fun f => nameEq (fname f) (mcallee m)) functions with
  | None => false
  | Some f => same (list_eq_dec param_dec) (fparams f) (tParam :: mparams m)
  end && same (list_eq_dec Z.eq_dec) (mcallee m) (mname m) && same (list_eq_dec expr_dec) (margs m) (ET :: map (fun p => EP (fst p)) (mparams m)) &&
  same (list_eq_dec (list_eq_dec Z.eq_dec)) (nodup (list_eq_dec Z.eq_dec) (map fst (mparams m))) (map fst (mparams m)) && variadic (mparams m) && mspread m.
Lemma all_forward : forallb forwards methods = true.
Proof. vm_compute. reflexivity. Qed.

Section Calls.
  Context {V T R : Type}.
  Variables (box : list V -> V) (call : bytes -> list (arg V T) -> R).
  Notation arg := (arg V T).

  Lemma find_app : forall (env1 env2 : list (bytes * arg)) x, ~ In x (map fst env1) ->
    find (fun p => nameEq (fst p) x) (env1 ++ env2) = find (fun p => nameEq (fst p) x) env2.
  Proof.
    intros env1 env2 x. induction env1 as [|[y v] env1 IH]; intros N; [reflexivity|]. cbn [app find fst].
    destruct (nameEq y x) eqn:E; [apply nameEq_iff in E; subst; destruct N; now left|]. apply IH. intros I. apply N. now right.
  Qed.
  Lemma eval_params : forall (a : Assertions T) names vs pre, List.length names = List.length vs -> NoDup (map fst pre ++ names) ->
    evalExprs V T a (pre ++ combine names vs) (map EP names) = Some vs.
  Proof.
    intros a. induction names as [|x names IH]; intros [|v vs] pre L D; try discriminate L; [reflexivity|].
    cbn [map evalExprs evalExpr combine]. rewrite find_app by (apply NoDup_remove_2 in D; intros I; apply D, in_app_iff; now left).
    cbn [find fst]. rewrite (proj2 (nameEq_iff x x) eq_refl). cbn [option_map snd].
    replace (pre ++ (x, v) :: combine names vs) with ((pre ++ [(x, v)]) ++ combine names vs) by (now rewrite <- app_assoc).
    rewrite IH; [reflexivity|now injection L|]. rewrite map_app, <- app_assoc. exact D.
  Qed.
  Lemma bind_length : forall n (vs fixed rest : list arg), bindValues V T n vs = Some (fixed, rest) -> List.length fixed = n.
  Proof.
    induction n as [|n IH]; intros vs fixed rest E; cbn [bindValues] in E; [now injection E as <- _|].
    destruct vs as [|v vs]; [discriminate|]. destruct (bindValues V T n vs) as [[a b]|] eqn:B; [|discriminate]. injection E as <- <-. cbn. f_equal. eauto.
  Qed.
  Lemma variadic_length : forall ps : list param, variadic ps = true -> exists n, List.length ps = S n.
  Proof. intros [|p ps] H; [discriminate|]. now exists (List.length ps). Qed.
  Lemma variadic_cons : forall p ps, variadic ps = true -> variadic (p :: ps) = true.
  Proof. intros p [|q ps] H; [discriminate|]. exact H. Qed.
  (** What the parameters hold: the last one holds a slice *)
  Lemma pass_shape : forall ps vs spread vs', variadic ps = true -> pass V T box ps vs spread = Some vs' ->
    List.length vs' = List.length ps /\ exists l, last vs' (AS V T []) = AS V T l.
  Proof.
    intros ps vs spread vs' A E. unfold pass in E. rewrite A in E. destruct (variadic_length ps A) as [n L]. destruct spread; cbn [andb] in E.
    - destruct (List.length vs =? List.length ps)%nat eqn:Q; [|discriminate]. apply Nat.eqb_eq in Q.
      destruct (last vs (AS V T [])) eqn:X; try discriminate. injection E as <-. eauto.
    - destruct (bindValues V T (List.length ps - 1) vs) as [[fixed rest]|] eqn:B; [|discriminate].
      destruct (asValues V T box rest) as [l|]; [|discriminate]. injection E as <-. apply bind_length in B. split; [|exists l; apply last_last].
      rewrite app_length, B, L. cbn. lia.
  Qed.
  Lemma last_cons : forall (v : arg) vs d, vs <> [] -> last (v :: vs) d = last vs d.
  Proof. intros v [|w vs] d N; [congruence|reflexivity]. Qed.
  Lemma pass_cons : forall p ps v vs spread, variadic ps = true -> pass V T box (p :: ps) (v :: vs) spread = option_map (cons v) (pass V T box ps vs spread).
  Proof.
    intros p ps v vs spread A. destruct (variadic_length ps A) as [n L]. unfold pass. rewrite (variadic_cons p ps A), A. destruct spread; cbn [andb List.length Nat.eqb].
    - destruct (List.length vs =? List.length ps)%nat eqn:Q; [|reflexivity]. apply Nat.eqb_eq in Q.
      rewrite last_cons by (intros ->; rewrite L in Q; discriminate). destruct (last vs (AS V T [])); reflexivity.
    - replace (S (List.length ps) - 1)%nat with (S (List.length ps - 1)) by lia. cbn [bindValues].
      destruct (bindValues V T (List.length ps - 1) vs) as [[fixed rest]|]; [|reflexivity]. destruct (asValues V T box rest); reflexivity.
  Qed.
End Calls.

(** * C129: the methods of Assertions *)

(** A call of a method of New(t) is the call of the function of the same name with t before the same arguments; a call that is not compiled is not compiled either way *)
Theorem C129_forward : forall V T R box (call : bytes -> list (arg V T) -> R) t m vs spread, In m methods ->
  callMethod V T R box call (New T t) m vs spread = callFunc V T R box call (mname m) (AT V T t :: vs) spread.
Proof.
  intros V T R box call t m vs spread I. pose proof (proj1 (forallb_forall _ _) all_forward m I) as F. unfold forwards in F.
  repeat (apply andb_true_iff in F; let H := fresh "F" in destruct F as [F H]).
  destruct (find (fun f => nameEq (fname f) (mcallee m)) functions) as [f|] eqn:E; [|discriminate].
  apply same_eq in F, F4, F3, F2. unfold callMethod, callFunc. rewrite <- F4, E, F. rewrite pass_cons by auto.
  destruct (pass V T box (mparams m) vs spread) as [vs'|] eqn:P; [|reflexivity]. destruct (pass_shape box _ _ _ _ F1 P) as [L [l Last]].
  assert (X : evalExprs V T (New T t) (combine (map fst (mparams m)) vs') (margs m) = Some (AT V T t :: vs')).
  { rewrite F3. cbn [evalExprs evalExpr]. change (at_ T (New T t)) with t. unfold param in *. rewrite <- (map_map fst EP).
    pose proof (eval_params (New T t) (map fst (mparams m)) vs' []) as EP0. cbn [app] in EP0. unfold param in *. rewrite EP0; [reflexivity|now rewrite map_length|]. cbn [map app]. rewrite <- F2. apply NoDup_nodup. }
  rewrite X. cbn [option_map]. rewrite F0. rewrite pass_cons by auto. unfold pass. rewrite F1, L, Nat.eqb_refl. cbn [andb]. rewrite Last. reflexivity.
Qed.
Print Assumptions C129_forward.

(** Every exported function that takes a TestingT first, but for New, is such a method, with the same parameters, and there are no others *)
Definition functionKeys : list (bytes * list param) :=
  flat_map (fun f => match fparams f with p :: ps => if same param_dec p tParam then [(fname f, ps)] else [] | [] => [] end) functions.
Definition methodKeys : list (bytes * list param) := map (fun m => (mname m, mparams m)) methods.
Lemma keys : forallb (fun k => if in_dec key_dec k functionKeys then true else false) methodKeys &&
  forallb (fun k => nameEq (fst k) (bs "New") || if in_dec key_dec k methodKeys then true else false) functionKeys &&
  forallb (fun m => negb (nameEq (mname m) (bs "New"))) methods = true.
Proof. vm_compute. reflexivity. Qed.
Lemma in_dec_in : forall k l, (if in_dec key_dec k l then true else false) = true -> In k l.
Proof. intros k l. destruct (in_dec key_dec k l); [auto|discriminate]. Qed.
Lemma functionKeys_in : forall n ps, In (n, ps) functionKeys <-> In (mkFunc n ((bs "t", bs "TestingT") :: ps)) functions.
Proof.
  intros n ps. unfold functionKeys. rewrite in_flat_map. split.
  - intros ([n' [|p ps']] & I & H); [destruct H|]. cbn [fparams fname] in H. destruct (same param_dec p tParam) eqn:S; [|destruct H].
    apply same_eq in S. subst p. destruct H as [H|[]]. assert (n' = n) by exact (f_equal fst H). assert (ps' = ps) by exact (f_equal snd H). subst. exact I.
  - intros I. eexists. split; [exact I|]. cbn [fparams fname]. unfold same, tParam. destruct (param_dec _ _) as [|N]; [now left|now destruct N].
Qed.
Lemma keys_iff : forall (fk : list (bytes * list param)) (ms : list method),
  forallb (fun k => if in_dec key_dec k fk then true else false) (map (fun m => (mname m, mparams m)) ms) &&
  forallb (fun k => nameEq (fst k) (bs "New") || if in_dec key_dec k (map (fun m => (mname m, mparams m)) ms) then true else false) fk &&
  forallb (fun m => negb (nameEq (mname m) (bs "New"))) ms = true ->
  forall n ps, In (n, ps) fk /\ n <> bs "New" <-> exists m, In m ms /\ mname m = n /\ mparams m = ps.
Proof.
  intros fk ms K n ps. apply andb_true_iff in K. destruct K as [K K3]. apply andb_true_iff in K. destruct K as [K1 K2].
  rewrite forallb_forall in K1, K2, K3. split.
  - intros [I N]. specialize (K2 _ I). cbn [fst] in K2. assert (Q : nameEq n (bs "New") = false) by (apply Bool.not_true_iff_false; intros Q; now apply nameEq_iff in Q).
    rewrite Q in K2. cbn [orb] in K2. apply in_dec_in in K2. apply in_map_iff in K2. destruct K2 as (m & E & J). exists m. split; [exact J|]. split; [exact (f_equal fst E)|exact (f_equal snd E)].
  - intros (m & I & E1 & E2). subst n ps. assert (J : In (mname m, mparams m) (map (fun m => (mname m, mparams m)) ms)) by (apply (in_map (fun m => (mname m, mparams m))), I).
    specialize (K1 _ J). apply in_dec_in in K1. split; [exact K1|]. intros Q. specialize (K3 _ I). rewrite (proj2 (nameEq_iff _ _) Q) in K3. discriminate K3.
Qed.
Theorem C129_complete : forall n ps, In (mkFunc n ((bs "t", bs "TestingT") :: ps)) functions /\ n <> bs "New" <-> exists m, In m methods /\ mname m = n /\ mparams m = ps.
Proof. intros n ps. rewrite <- functionKeys_in. exact (keys_iff functionKeys methods keys n ps). Qed.
Print Assumptions C129_complete.

(** A call with single values: the function gets the t, the first ones, and a slice of the others *)
Theorem C129_values : forall V T R box (call : bytes -> list (arg V T) -> R) t m fixed rest, In m methods -> S (List.length fixed) = List.length (mparams m) ->
  callMethod V T R box call (New T t) m (map (AV V T) (fixed ++ rest)) false = Some (call (mname m) (AT V T t :: map (AV V T) fixed ++ [AS V T rest])).
Proof.
  intros V T R box call t m fixed rest I L. rewrite C129_forward by auto.
  pose proof (proj1 (forallb_forall _ _) all_forward m I) as F. unfold forwards in F.
  repeat (apply andb_true_iff in F; let H := fresh "F" in destruct F as [F H]).
  destruct (find (fun f => nameEq (fname f) (mcallee m)) functions) as [f|] eqn:E; [|discriminate].
  apply same_eq in F, F4. unfold callFunc. rewrite <- F4, E, F, pass_cons by auto. unfold pass. rewrite F1, <- L.
  replace (S (List.length fixed) - 1)%nat with (List.length fixed) by lia.
  assert (B : bindValues V T (List.length fixed) (map (AV V T) (fixed ++ rest)) = Some (map (AV V T) fixed, map (AV V T) rest)).
  { clear. induction fixed as [|v fixed IH]; [destruct rest; reflexivity|]. cbn [List.length app map bindValues]. now rewrite IH. }
  rewrite B. assert (A : asValues V T box (map (AV V T) rest) = Some rest) by (clear; induction rest as [|v rest IH]; [reflexivity|cbn; now rewrite IH]).
  rewrite A. reflexivity.
Qed.
Print Assumptions C129_values.
(** A slice at the end: with ... it is passed as it is, without it is one of the values *)
Theorem C129_slice : forall V T R box (call : bytes -> list (arg V T) -> R) t m fixed l, In m methods -> S (List.length fixed) = List.length (mparams m) ->
  callMethod V T R box call (New T t) m (map (AV V T) fixed ++ [AS V T l]) true = Some (call (mname m) (AT V T t :: map (AV V T) fixed ++ [AS V T l])) /\
  callMethod V T R box call (New T t) m (map (AV V T) fixed ++ [AS V T l]) false = Some (call (mname m) (AT V T t :: map (AV V T) fixed ++ [AS V T [box l]])).
Proof.
  intros V T R box call t m fixed l I L. rewrite !C129_forward by auto.
  pose proof (proj1 (forallb_forall _ _) all_forward m I) as F. unfold forwards in F.
  repeat (apply andb_true_iff in F; let H := fresh "F" in destruct F as [F H]).
  destruct (find (fun f => nameEq (fname f) (mcallee m)) functions) as [f|] eqn:E; [|discriminate].
  apply same_eq in F, F4. unfold callFunc. rewrite <- F4, E, F, !pass_cons by auto. unfold pass. rewrite F1, <- L, app_length, map_length.
  replace (List.length fixed + List.length [AS V T l])%nat with (S (List.length fixed)) by (cbn; lia). rewrite Nat.eqb_refl. cbn [andb]. rewrite last_last. split; [reflexivity|].
  replace (S (List.length fixed) - 1)%nat with (List.length fixed) by lia.
  assert (B : bindValues V T (List.length fixed) (map (AV V T) fixed ++ [AS V T l]) = Some (map (AV V T) fixed, [AS V T l])).
  { clear. induction fixed as [|v fixed IH]; [reflexivity|]. cbn [List.length app map bindValues]. now rewrite IH. }
  rewrite B. reflexivity.
Qed.
Print Assumptions C129_slice.
Definition equalMethod : method := mkMethod (bs "Equal") [(bs "expected", bs "interface{}"); (bs "actual", bs "interface{}"); (bs "msgAndArgs", bs "...interface{}")] (bs "Equal")
  [ET; EP (bs "expected"); EP (bs "actual"); EP (bs "msgAndArgs")] true.
Example C129_example : In equalMethod methods /\ S (List.length [1; 2]) = List.length (mparams equalMethod) /\
  callMethod Z bytes (bytes * list (arg Z bytes)) (fun _ => 0) pair (New bytes (bs "T1")) equalMethod [AV Z bytes 1; AV Z bytes 2; AV Z bytes 3] false =
    Some (bs "Equal", [AT Z bytes (bs "T1"); AV Z bytes 1; AV Z bytes 2; AS Z bytes [3]]) /\
  callMethod Z bytes (bytes * list (arg Z bytes)) (fun _ => 0) pair (New bytes (bs "T1")) equalMethod [AV Z bytes 1; AV Z bytes 2; AS Z bytes [3; 4]] true =
    Some (bs "Equal", [AT Z bytes (bs "T1"); AV Z bytes 1; AV Z bytes 2; AS Z bytes [3; 4]]) /\
  callMethod Z bytes (bytes * list (arg Z bytes)) (fun _ => 0) pair (New bytes (bs "T1")) equalMethod [AV Z bytes 1] false = None.
Proof.
  split; [|vm_compute; repeat split]. refine (nth_error_In methods 10 _). vm_compute. reflexivity.
Qed.
