(** Specification of reflect2's slices: lists. *)
From Verif Require Import Base SliceModel.
Open Scope Z_scope.
Open Scope list_scope.

Section Spec.
  Variable A : Type.
  Variable zero : A.

  (** Where element i of a slice is, and what is there; also between the length and the capacity *)
  Definition place (h : header) (i : Z) : option pointer := match Data h with Some (a, k) => Some (a, k + i) | None => None end.
  Definition item (m : memory A) (h : header) (i : Z) : option A := match place h i with Some p => load A m p | None => None end.
  (** A slice as Go's: 0 <= len <= cap, and its array has that capacity *)
  Definition wf (m : memory A) (h : header) : Prop := 0 <= Len h <= Cap h /\ forall i, 0 <= i < Cap h -> item m h i <> None.
  (** The slice has these elements *)
  Definition holds (m : memory A) (h : header) (l : list A) : Prop := lenZ l = Len h /\ forall i, 0 <= i < Len h -> item m h i = nthZ l i.
  (** Whatever can be read in m can be read in m' with the same value, except at p *)
  Definition keeps (m m' : memory A) (except : option pointer) : Prop :=
    forall q y, load A m q = Some y -> Some q <> except -> load A m' q = Some y.
  Definition put (l : list A) (i : Z) (x : A) : list A := firstn (Z.to_nat i) l ++ x :: skipn (Z.to_nat (i + 1)) l.
  Definition zeros (n : Z) : list A := repeat zero (Z.to_nat n).

  (** * Programs whose slices do not share arrays: what they do to lists *)
  Definition lists := nat -> list A.
  Definition setList (s : lists) (v : nat) (l : list A) : lists := fun w => if Nat.eqb w v then l else s w.
  (** Is the operation one of these, within the bounds? *)
  Definition proper (s : lists) (o : op A) : Prop :=
    match o with
    | OMake _ v n c => 0 <= n <= c /\ c <= 2 ^ 62
    | OAppend _ v x => lenZ (s v) < 2 ^ 62
    | OGrow _ v n => lenZ (s v) <= n <= 2 ^ 62
    | OSet _ v i x => 0 <= i < lenZ (s v)
    | ORead _ v i => 0 <= i < lenZ (s v)
    | OSetNil _ v => True
    | _ => False
    end.
  Definition effect (s : lists) (o : op A) : lists * list A :=
    match o with
    | OMake _ v n c => (setList s v (zeros n), [])
    | OAppend _ v x => (setList s v (s v ++ [x]), [])
    | OGrow _ v n => (setList s v (s v ++ zeros (n - lenZ (s v))), [])
    | OSet _ v i x => (setList s v (put (s v) i x), [])
    | ORead _ v i => (s, match nthZ (s v) i with Some x => [x] | None => [] end)
    | OSetNil _ v => (setList s v [], [])
    | _ => (s, [])
    end.
  Fixpoint propers (s : lists) (l : list (op A)) : Prop :=
    match l with [] => True | o :: l => proper s o /\ propers (fst (effect s o)) l end.
  Fixpoint effects (s : lists) (l : list (op A)) : lists * list A :=
    match l with
    | [] => (s, [])
    | o :: l => let '(s, x) := effect s o in let '(s, y) := effects s l in (s, x ++ y)
    end.
  Definition none : lists := fun _ => [].

  (** * Any program *)

  (** Within the bounds: the operations that neither Go's nor reflect2's documentation forbids *)
  Definition inside (s : state A) (o : op A) : Prop :=
    match o with
    | OMake _ v n c => 0 <= n <= c
    | OAppend _ v x => Len (vars A s v) < 2 ^ 62
    | OGrow _ v n => 0 <= n <= 2 ^ 62
    | OSet _ v i x => 0 <= i < Len (vars A s v)
    | OGet _ v i => 0 <= i < Len (vars A s v)
    | ORead _ v i => 0 <= i < Len (vars A s v)
    | _ => True
    end.
  Variable next : state A -> op A -> outcome (state A).
  Fixpoint insides (s : state A) (l : list (op A)) : Prop :=
    match l with [] => True | o :: l => inside s o /\ match next s o with Done s => insides s l | _ => True end end.
  (** All slices are as Go's, and the pointers point to elements *)
  Definition good (s : state A) : Prop :=
    (forall v, wf (mem A s) (vars A s v)) /\ Forall (fun p => exists q, p = Some q /\ load A (mem A s) q <> None) (ptrs A s).
End Spec.

(** How many elements are copied when these elements are appended one after another: all of the slice whenever it is full *)
Section Cost.
  Variable A : Type.
  Variable append : memory A -> header -> A -> outcome (memory A * header).
  Fixpoint copied (m : memory A) (h : header) (l : list A) : Z :=
    match l with
    | [] => 0
    | x :: l => (if Len h <? Cap h then 0 else Len h) + match append m h x with Done (m, h) => copied m h l | _ => 0 end
    end.
End Cost.
