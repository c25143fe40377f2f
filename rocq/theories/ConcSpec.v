(** What waiting for goroutines means, told by events; and linearizability of a map. *)
From Verif Require Import Base ConcModel.

(** How many goroutines were started, how many handlers logged a panic. *)
Definition started (evs : list eevent) : nat := List.length (filter (fun e => match e with EGo _ => true | _ => false end) evs).
Definition all_over (evs : list eevent) : Prop := forall i, (i < started evs)%nat -> (exists how, In (EEnd i how) evs) /\ In (ELeave i) evs.

(** Histories of calls and returns. *)
Inductive hevent := Inv (id : nat) (o : op) | Resp (id : nat) (r : ret).
Definition history (evs : list mevent) : list hevent :=
  flat_map (fun e => match e with MInvoke id o => [Inv id o] | MRespond id r => [Resp id r] | _ => [] end) evs.

(** A sequential map: the results of operations done one after the other. *)
Fixpoint legal (m : Z -> option Z) (l : list (nat * op * ret)) : Prop :=
  match l with
  | [] => True
  | (_, Load k, r) :: l => r = Loaded (m k) /\ legal m l
  | (_, Store k v, r) :: l => r = Stored /\ legal (fun k' => if k' =? k then Some v else m k') l
  end.
Definition ids (l : list (nat * op * ret)) : list nat := map (fun x => fst (fst x)) l.
Definition before (l : list (nat * op * ret)) (i j : nat) : Prop :=
  exists a x b y c, l = a ++ x :: b ++ y :: c /\ fst (fst x) = i /\ fst (fst y) = j.
(** Herlihy and Wing: all completed operations, and some of the pending ones, can be put in an order that a
    sequential map explains and that keeps the order of operations that do not overlap. *)
Definition linearizable (h : list hevent) : Prop :=
  exists l, NoDup (ids l) /\ legal (fun _ => None) l /\
    (forall id r, In (Resp id r) h -> exists o, In (id, o, r) l) /\
    (forall id o r, In (id, o, r) l -> In (Inv id o) h) /\
    (forall a i r b j o c, h = a ++ Resp i r :: b ++ Inv j o :: c -> In j (ids l) -> before l i j).
