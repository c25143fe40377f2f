(** What a map contains, and what its operations should do: independent of RMapModel.v's operations. *)
From Verif Require Import Base RMapModel.
From Coq Require Import Sorting.Permutation.
Open Scope list_scope.

Section Spec.
  Variable K V : Type.
  Variable keq : K -> K -> bool.
  (** Equality of keys is symmetric and transitive; NaN is not equal to itself *)
  Definition key_equality : Prop := (forall a b, keq a b = keq b a) /\ (forall a b c, keq a b = true -> keq b c = true -> keq a c = true).
  (** The key can be hashed; hb tells for key types that contain interfaces, and is None for others *)
  Definition can_hash (hb : option (K -> bool)) (k : K) : Prop := match hb with None => True | Some can => can k = true end.
  (** The element of a key among pairs *)
  Fixpoint value_of (l : list (K * V)) (k : K) : option V :=
    match l with [] => None | (k', v) :: r => if keq k k' then Some v else value_of r k end.
  (** The value last set for a key; the latest is the first of the history *)
  Fixpoint last_set (history : list (K * V)) (k : K) : option V :=
    match history with [] => None | (k', v) :: r => if keq k k' then Some v else last_set r k end.
  (** The pairs of the map at b *)
  Definition contents (h : mheap K V) (b : nat) : list (K * V) := map (fun x => (fst x, vars h (snd x))) (match hdrs h b with Some l => l | None => [] end).
  (** Each key is there once (keys that equal nothing as often as they were added), and no slot is used twice, in one map or in two *)
  Definition slots (h : mheap K V) (b : nat) (s : nat) : Prop := exists l, hdrs h b = Some l /\ In s (map snd l).
  Definition heap_ok (h : mheap K V) : Prop :=
    (forall b l, hdrs h b = Some l -> NoDup (map snd l) /\ ForallOrdPairs (fun x y => keq (fst x) (fst y) = false) l /\ (b < nxt h)%nat) /\
    (forall b s, slots h b s -> (s < nxt h)%nat) /\
    (forall b b' s, slots h b s -> slots h b' s -> b = b').
  (** What cannot be hashed is in no map *)
  Definition keys_hash (hb : option (K -> bool)) (h : mheap K V) : Prop := forall b l k s, hdrs h b = Some l -> In (k, s) l -> can_hash hb k.
  (** The map variable p holds the map b *)
  Definition holds_map (h : mheap K V) (p b : nat) : Prop := mvars h p = Some b /\ hdrs h b <> None.
  (** Nothing else changed: other maps, map variables, and variables that are no slots of b *)
  Definition others_same (h h' : mheap K V) (b : nat) : Prop :=
    mvars h' = mvars h /\ (nxt h <= nxt h')%nat /\ (forall b', b' <> b -> contents h' b' = contents h b' /\ hdrs h' b' = hdrs h b') /\
    (forall x, (x < nxt h)%nat -> ~ slots h b x -> vars h' x = vars h x).
  (** Nothing that existed changed *)
  Definition same (h h' : mheap K V) : Prop :=
    mvars h' = mvars h /\ hdrs h' = hdrs h /\ (nxt h <= nxt h')%nat /\ (forall x, (x < nxt h)%nat -> vars h' x = vars h x).
End Spec.
Arguments value_of {K V} keq l k. Arguments last_set {K V} keq history k. Arguments contents {K V} h b. Arguments slots {K V} h b s.
Arguments heap_ok {K V} keq h. Arguments holds_map {K V} h p b. Arguments others_same {K V} h h' b. Arguments same {K V} h h'. Arguments key_equality {K} keq. Arguments can_hash {K} hb k. Arguments keys_hash {K V} hb h.
