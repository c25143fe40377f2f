(** Which names stand for an index, without the functions of the model. *)
From Verif Require Import Base.

Definition digit (c : Z) : Prop := 48 <= c <= 57.
Definition blank (c : Z) : Prop := In c [9; 11; 12; 13; 32].
(** A character of a pattern that stands for itself *)
Definition plain (c : Z) : Prop := c <> 37 /\ c <> 10 /\ ~ blank c.
(** The number that digits denote *)
Inductive denotes : bytes -> Z -> Prop :=
| den_nil : denotes [] 0
| den_snoc ds d v : denotes ds v -> digit d -> denotes (ds ++ [d]) (10 * v + (d - 48)).
Definition int64 (v : Z) : Prop := - 2 ^ 63 <= v < 2 ^ 63.

(** The name for the index [v]: its decimal digits, without a zero in front, with a minus if it is negative *)
Inductive index_name (pre suf : bytes) : Z -> bytes -> Prop :=
| in_pos ds v : ds <> [] -> denotes ds v -> hd 0 ds <> 48 \/ ds = [48] -> index_name pre suf v (pre ++ ds ++ suf)
| in_neg ds v : denotes ds v -> ds <> [] -> hd 0 ds <> 48 -> index_name pre suf (- v) (pre ++ [45] ++ ds ++ suf).

(** What is accepted for the index [v]: also white space, a plus, zeros in front, and any text behind *)
Definition accepted (pre suf : bytes) (v : Z) (name : bytes) : Prop :=
  exists sp sg ds u rest, name = pre ++ sp ++ sg ++ ds ++ suf ++ rest /\ Forall blank sp /\ ds <> [] /\ denotes ds u /\
    (sg = [] /\ v = u \/ sg = [43] /\ v = u \/ sg = [45] /\ v = - u) /\ int64 v /\
    (forall c t, suf ++ rest = c :: t -> ~ digit c).
