(** What the JSON assertions are to accept, stated on documents. *)
From Verif Require Import Base AssertModel.

(** The keys of every object are different, as in a Go map *)
Inductive wf : doc -> Prop :=
| wf_null : wf DNull
| wf_bool : forall b, wf (DBool b)
| wf_num : forall x, wf (DNum x)
| wf_str : forall s, wf (DStr s)
| wf_slice : forall l, Forall wf l -> wf (DSlice l)
| wf_map : forall l, NoDup (map fst l) -> Forall (fun p => wf (snd p)) l -> wf (DMap l).

(** Equal as JSON values: the order of members does not matter *)
Inductive same : doc -> doc -> Prop :=
| same_null : same DNull DNull
| same_bool : forall b, same (DBool b) (DBool b)
| same_num : forall x, same (DNum x) (DNum x)
| same_str : forall s, same (DStr s) (DStr s)
| same_slice : forall l m, Forall2 same l m -> same (DSlice l) (DSlice m)
| same_map : forall l m, (forall k, get k l = None <-> get k m = None) -> (forall k x y, get k l = Some x -> get k m = Some y -> same x y) -> same (DMap l) (DMap m).

(** * should.JsonEqual *)
Definition ANYTHING : doc := DStr (bs "ANYTHING").
Definition is_map (d : doc) : Prop := match d with DMap _ => True | _ => False end.
(** Equal, but a member ANYTHING of an object (also in an object in an object, not in an array) allows for any member, and for none *)
Inductive accepts : doc -> doc -> Prop :=
| accepts_map : forall l m,
    (forall k, get k l <> Some ANYTHING -> (get k l = None <-> get k m = None)) ->
    (forall k x y, get k l = Some x -> x <> ANYTHING -> get k m = Some y -> accepts x y) -> accepts (DMap l) (DMap m)
| accepts_same : forall e a, ~ is_map e -> same e a -> accepts e a.
(** No null but in arrays *)
Inductive maskable : doc -> Prop :=
| maskable_map : forall l, (forall k x, get k l = Some x -> maskable x) -> maskable (DMap l)
| maskable_other : forall e, ~ is_map e -> e <> DNull -> maskable e.
(** Null where an object is gone through, or a member that is missing *)
Inductive stuck : doc -> doc -> Prop :=
| stuck_null : forall a, stuck DNull a
| stuck_missing : forall l m k x, get k l = Some x -> x <> ANYTHING -> get k m = None -> stuck (DMap l) (DMap m)
| stuck_in : forall l m k x y, get k l = Some x -> x <> ANYTHING -> get k m = Some y -> stuck x y -> stuck (DMap l) (DMap m).

(** * must.JsonEqual *)
(** A text in braces: the name of a variable *)
Definition braces (s : bytes) : Prop := exists t, s = bs "{" ++ t ++ bs "}".
Definition ANY : bytes := bs "{ANYTHING}".
(** No member of an object has a name in braces *)
Inductive plain : doc -> Prop :=
| plain_map : forall l, (forall k x, get k l = Some x -> ~ braces k /\ plain x) -> plain (DMap l)
| plain_slice : forall l, Forall plain l -> plain (DSlice l)
| plain_other : forall d, (forall l, d <> DMap l) -> (forall l, d <> DSlice l) -> plain d.
(** A member of an object that stands for a variable *)
Definition is_variable (d : doc) : Prop := exists s, d = DStr s /\ braces s.
(** The two documents are equal once the variables have got the values of [env]; a member "{ANYTHING}" allows for any member and for none; there is no null *)
Inductive matches (env : bytes -> doc) : doc -> doc -> Prop :=
| matches_bool : forall b, matches env (DBool b) (DBool b)
| matches_num : forall x, matches env (DNum x) (DNum x)
| matches_str : forall s, matches env (DStr s) (DStr s)
| matches_slice : forall l m, Forall2 (matches env) l m -> matches env (DSlice l) (DSlice m)
| matches_map : forall l m,
    (forall k, get k l <> Some (DStr ANY) -> (get k l = None <-> get k m = None)) ->
    (forall k s y, get k l = Some (DStr s) -> braces s -> s <> ANY -> get k m = Some y -> same (env s) y) ->
    (forall k x y, get k l = Some x -> ~ is_variable x -> get k m = Some y -> matches env x y) -> matches env (DMap l) (DMap m).
