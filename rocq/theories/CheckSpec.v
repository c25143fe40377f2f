(** What tests written with test.Case and the checks of must and should are expected to do, without goroutine local
    storage: the test t is given.  Only the types of CheckModel.v are used: values, effects, the syntax of tests. *)
From Verif Require Import Base.
From Verif Require Export CheckModel.

(** ** nil *)

(** The kinds whose values can be nil: chan 18, func 19, map 21, pointer 22, slice 23, unsafe.Pointer 26. *)
Definition nilable (kind : Z) : Prop := In kind [18; 19; 21; 22; 23; 26].
(** The kinds of a value in an interface{} (all but Invalid and Interface) *)
Definition dynamic_kind (kind : Z) : Prop := (1 <= kind <= 26) /\ kind <> 20.
Definition ok_iface (v : iface) : Prop := match v with INil => True | IVal _ k _ => dynamic_kind k end.
(** v == nil, or v holds a nil value *)
Definition is_nil (v : iface) : Prop := match v with INil => True | IVal _ k d => nilable k /\ d = 0 end.
Definition unsafe_nil (v : iface) : Prop := match v with INil => False | IVal _ k d => k = 26 /\ d = 0 end.

(** ** Tests as big-step relation *)

Inductive ending := Returns | Throws (v : iface) | Exits.

(** When a check is met; the nil of unsafe.Pointer is not seen as nil. *)
Definition holds (c : check) : Prop :=
  match c with
  | CNil v => is_nil v /\ ~ unsafe_nil v
  | CNotNil v => ~ is_nil v \/ unsafe_nil v
  | CEqual b | CAssert b _ | CPass b _ => b = true
  end.

(** Pairs of a string and a value; 24 is the type string, not any type of the kind String *)
Inductive paired : list iface -> nat -> Prop :=
| paired_nil : paired [] 0
| paired_cons : forall k d v kv n, paired kv n -> paired (IVal 24 k d :: v :: kv) (S n).
(** n pairs, then something else *)
Inductive unpaired : list iface -> nat -> Prop :=
| unpaired_key : forall v kv, (forall k d, v <> IVal 24 k d) -> unpaired (v :: kv) 0
| unpaired_alone : forall k d, unpaired [IVal 24 k d] 0
| unpaired_cons : forall k d v kv n, unpaired kv n -> unpaired (IVal 24 k d :: v :: kv) (S n).

(** What a failing check says before the line about the failed lines: package assert's message, or the pairs.
    must.Assert has no use for the pairs. *)
Inductive complains (t : Z) (must ok : bool) : check -> list effect -> Prop :=
| complains_nil : forall v, complains t must ok (CNil v) [Errors t OfAssert]
| complains_not_nil : forall v, complains t must ok (CNotNil v) [Errors t OfAssert]
| complains_equal : forall b, complains t must ok (CEqual b) [Errors t OfAssert]
| complains_must_assert : forall b kv, must = true -> complains t must ok (CAssert b kv) []
| complains_no_caller : forall b kv, ok = false -> complains t must ok (CPass b kv) []
| complains_no_caller' : forall b kv, ok = false -> complains t must ok (CAssert b kv) []
| complains_assert : forall b kv n, must = false -> ok = true -> paired kv n -> complains t must ok (CAssert b kv) (repeat (Errors t KeyValue) n)
| complains_pass : forall b kv n, ok = true -> paired kv n -> complains t must ok (CPass b kv) (repeat (Errors t KeyValue) n).
(** ... or a panic over the pairs *)
Inductive trips (t : Z) (must : bool) : check -> list effect -> Prop :=
| trips_assert : forall b kv n, must = false -> unpaired kv n -> trips t must (CAssert b kv) (repeat (Errors t KeyValue) n)
| trips_pass : forall b kv n, unpaired kv n -> trips t must (CPass b kv) (repeat (Errors t KeyValue) n).

Definition words (ok : bool) : text := if ok then FailedLines else CheckFailed.

(** The test l run with t: what its goroutine does and how it ends. *)
Inductive runs (t : Z) : list stmt -> list effect -> ending -> Prop :=
| runs_end : runs t [] [] Returns
| runs_check : forall must ok c l e r, holds c -> runs t l e r -> runs t (SCheck must ok c :: l) e r
| runs_should : forall ok c l k e r, ~ holds c -> complains t false ok c k -> runs t l e r ->
    runs t (SCheck false ok c :: l) (k ++ Errors t (words ok) :: e) r
| runs_must : forall ok c l k, ~ holds c -> complains t true ok c k ->
    runs t (SCheck true ok c :: l) (k ++ [Fatals t (words ok)]) Exits
| runs_trip : forall must c l k, ~ holds c -> trips t must c k ->
    runs t (SCheck must true c :: l) k (Throws runtimeError)
| runs_panic : forall must f l v e e' r, runs t f e (Throws v) -> ~ is_nil v \/ unsafe_nil v -> runs t l e' r ->
    runs t (SPanic must true f :: l) (e ++ e') r
| runs_panic_must : forall f l e r, runs t f e r -> (forall v, r = Throws v -> is_nil v /\ ~ unsafe_nil v) ->
    runs t (SPanic true true f :: l) (e ++ [Errors t OfAssert; Fatals t FailedLines]) Exits
| runs_panic_should : forall f l e r e' r', runs t f e r -> (forall v, r = Throws v -> is_nil v /\ ~ unsafe_nil v) -> r <> Exits ->
    runs t l e' r' -> runs t (SPanic false true f :: l) (e ++ Errors t OfAssert :: Errors t FailedLines :: e') r'
| runs_panic_exit : forall f l e, runs t f e Exits ->
    runs t (SPanic false true f :: l) (e ++ [Errors t OfAssert; Errors t FailedLines]) Exits
| runs_panic_must_no_caller : forall f l, runs t (SPanic true false f :: l) [Fatals t CheckFailed] Exits
| runs_panic_should_no_caller : forall f l e r, runs t l e r -> runs t (SPanic false false f :: l) (Errors t CheckFailed :: e) r
| runs_mark : forall n l e r, runs t l e r -> runs t (SMark n :: l) (Marks n :: e) r
| runs_throw : forall v l, runs t (SThrow v :: l) [] (Throws v)
| runs_exit : forall l, runs t (SExit :: l) [] Exits
| runs_skip : forall l, runs t (SSkip :: l) [Skips t] Exits
| runs_go : forall b f l e r, runs t l e r -> runs t (SGo b f :: l) e r
| runs_run : forall t' f l e r, runs t l e r -> runs t (SRun t' f :: l) e r.

(** The goroutine of the test does not itself call a function made by Case or by gls.WithGls (its children may). *)
Inductive flat : stmt -> Prop :=
| flat_check : forall must ok c, flat (SCheck must ok c)
| flat_panic : forall must ok f, Forall flat f -> flat (SPanic must ok f)
| flat_mark : forall n, flat (SMark n)
| flat_throw : forall v, flat (SThrow v)
| flat_exit : flat SExit
| flat_skip : flat SSkip
| flat_go : forall b f, flat (SGo b f)
| flat_run : forall t f, flat (SRun t f).

(** Tests that panic by themselves nowhere *)
Inductive quiet : stmt -> Prop :=
| quiet_check : forall must ok c, quiet (SCheck must ok c)
| quiet_mark : forall n, quiet (SMark n)
| quiet_case : forall t f, t <> 0 -> Forall quiet f -> quiet (SCase t f).

(** The checks that look for the test *)
Definition needs_t (c : check) : Prop := match c with CAssert b _ | CPass b _ => b = false | _ => True end.

Definition ending_of {A} (r : A + abrupt) : ending :=
  match r with inl _ => Returns | inr (Panics v) => Throws v | inr Goexit => Exits end.

(** What goroutine g does *)
Definition own (g : Z) (e : list (Z * effect)) : list effect := map snd (filter (fun p => fst p =? g) e).

(** The nil values in a test are well formed *)
Definition ok_check (c : check) : Prop := match c with CNil v | CNotNil v => ok_iface v | _ => True end.
Inductive ok_stmt : stmt -> Prop :=
| ok_st_check : forall must ok c, ok_check c -> ok_stmt (SCheck must ok c)
| ok_st_panic : forall must ok f, Forall ok_stmt f -> ok_stmt (SPanic must ok f)
| ok_st_mark : forall n, ok_stmt (SMark n)
| ok_st_throw : forall v, ok_iface v -> ok_stmt (SThrow v)
| ok_st_exit : ok_stmt SExit
| ok_st_skip : ok_stmt SSkip
| ok_st_case : forall t f, Forall ok_stmt f -> ok_stmt (SCase t f)
| ok_st_with : forall f, Forall ok_stmt f -> ok_stmt (SWithGls f)
| ok_st_go : forall b f, Forall ok_stmt f -> ok_stmt (SGo b f)
| ok_st_run : forall t f, Forall ok_stmt f -> ok_stmt (SRun t f).

(** ** Tests that are a sequence of checks and steps *)

Inductive item := Good | Bad (must : bool) | Step (n : Z).
(** The steps that are made, whether a check failed, whether the test was stopped *)
Fixpoint outcome (l : list item) : list Z * bool * bool :=
  match l with
  | [] => ([], false, false)
  | Good :: l => outcome l
  | Bad true :: _ => ([], true, true)
  | Bad false :: l => match outcome l with (s, _, b) => (s, true, b) end
  | Step n :: l => match outcome l with (s, f, b) => (n :: s, f, b) end
  end.
Inductive item_of : stmt -> item -> Prop :=
| item_good : forall must ok c, holds c -> item_of (SCheck must ok c) Good
| item_bad : forall must ok c t k, ~ holds c -> complains t must ok c k -> item_of (SCheck must ok c) (Bad must)
| item_step : forall n, item_of (SMark n) (Step n).

Definition steps_of (e : list effect) : list Z := flat_map (fun x => match x with Marks n => [n] | _ => [] end) e.
(** t is marked as failed *)
Definition fails (t : Z) (e : list effect) : Prop := exists x, In (Errors t x) e \/ In (Fatals t x) e.

(** ** Call and Set *)
Section CallSpec.
  Variable assignable : Z -> Z -> bool.
  Variable implementsError : Z -> bool.
  Variable kindOf : Z -> Z.
  Variable elemOf : Z -> Z.

  (** The parameter of type pty that is given v: an interface holds v, other variables the same data. *)
  Inductive given (pty : Z) : iface -> rvalue -> Prop :=
  | given_iface : forall ty k d, assignable ty pty = true -> kindOf pty = 20 -> given pty (IVal ty k d) (RIface pty (IVal ty k d))
  | given_data : forall ty k d, assignable ty pty = true -> kindOf pty <> 20 -> given pty (IVal ty k d) (RVal pty d).
  (** The zero value of a type *)
  Definition zero (pty : Z) (v : rvalue) : Prop := (kindOf pty = 20 /\ v = RIface pty INil) \/ (kindOf pty <> 20 /\ v = RVal pty 0).

  Definition given_or_zero (pty : Z) (v : iface) (x : rvalue) : Prop := given pty v x \/ (v = INil /\ zero pty x).

  (** How f sees its arguments: the fixed ones and the variadic ones *)
  Definition sees (R : Z -> iface -> rvalue -> Prop) (f : func) (args : list iface) (fixed extra : list rvalue) : Prop :=
    if variadic f then
      exists ps pv a1 a2, params f = ps ++ [pv] /\ args = a1 ++ a2 /\
        List.length a1 = List.length ps /\ Forall2 (fun p x => R (fst p) (snd p) x) (combine ps a1) fixed /\
        Forall2 (given (elemOf pv)) a2 extra
    else List.length args = List.length (params f) /\ Forall2 (fun p x => R (fst p) (snd p) x) (combine (params f) args) fixed /\ extra = [].

  (** The result of the last type is an error that is not nil; for a last result type that is no interface, every
      result is. *)
  Definition error_result (rs : list rvalue) : Prop :=
    exists rs' r, rs = rs' ++ [r] /\
      match r with
      | RInvalid => False
      | RVal ty _ => implementsError ty = true
      | RIface ty v => implementsError ty = true /\ v <> INil
      end.
  (** ... as it should be: a nil pointer is no error *)
  Definition real_error (rs : list rvalue) : Prop :=
    exists rs' r, rs = rs' ++ [r] /\
      match r with
      | RInvalid => False
      | RVal ty d => implementsError ty = true /\ ~ (nilable (kindOf ty) /\ d = 0)
      | RIface ty v => implementsError ty = true /\ ~ is_nil v
      end.

  (** Variable p of type ty takes the value v *)
  Inductive settable : iface -> iface -> Z -> rvalue -> Prop :=
  | settable_ptr : forall pty p v x, p <> 0 -> given (elemOf pty) v x -> settable (IVal pty 22 p) v p x.

  (** The writes of Set, in order, up to the first that is not possible *)
  Inductive writes : list iface -> list iface -> list (Z * rvalue) -> bool -> Prop :=
  | writes_done : forall rs, writes [] rs [] false
  | writes_one : forall o os r rs p x l b, settable o r p x -> writes os rs l b -> writes (o :: os) (r :: rs) ((p, x) :: l) b
  | writes_none : forall o os, writes (o :: os) [] [] true
  | writes_not : forall o os r rs, (forall p x, ~ settable o r p x) -> writes (o :: os) (r :: rs) [] true.

  (** The last write to a variable counts *)
  Fixpoint last_write (p : Z) (l : list (Z * rvalue)) : option rvalue :=
    match l with
    | [] => None
    | (q, x) :: l => match last_write p l with Some y => Some y | None => if q =? p then Some x else None end
    end.
End CallSpec.
