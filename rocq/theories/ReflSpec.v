(** What operations on variables, fields and array elements should do.  Independent of the operations of ReflModel.v; uses the memory and the
    types of MemModel.v. *)
From Verif Require Import Base JsonCompModel MemModel MemSpec ReflModel.
Open Scope Z_scope.
Open Scope list_scope.

(** [in_region p n b o]: the address (b, o) is one of the n bytes at p *)
Definition in_region (p : ptr) (n : Z) (b : nat) (o : Z) : Prop := b = fst p /\ snd p <= o < snd p + n.
(** m' is m with the n bytes at p replaced by those that were at q, and nothing else changed *)
Definition copied (m m' : mem) (p q : ptr) (n : Z) : Prop :=
  (forall o, 0 <= o < n -> cells m' (fst p) (snd p + o) = cells m (fst q) (snd q + o)) /\
  (forall b o, ~ in_region p n b o -> cells m' b o = cells m b o) /\ maps m' = maps m /\ next m' = next m.
(** m' is m with a new variable at q, which has the n bytes that were at p *)
Definition copied_new (m m' : mem) (p q : ptr) (n : Z) : Prop :=
  q = (next m, 0) /\ (forall o, 0 <= o < n -> cells m' (fst q) (snd q + o) = cells m (fst p) (snd p + o)) /\
  (forall b o, b <> next m -> cells m' b o = cells m b o) /\ maps m' = maps m /\ next m' = S (next m).

(** Two words of memory are of one kind *)
Inductive alike : option cell -> option cell -> Prop :=
| alike_none : alike None None
| alike_bool a b : alike (Some (CBool a)) (Some (CBool b))
| alike_f64 a b : alike (Some (CF64 a)) (Some (CF64 b))
| alike_f32 a b : alike (Some (CF32 a)) (Some (CF32 b))
| alike_ptr a b : alike (Some (CPtr a)) (Some (CPtr b))
| alike_type a b : alike (Some (CType a)) (Some (CType b))
| alike_itab a b : alike (Some (CItab a)) (Some (CItab b))
| alike_int k a b : alike (Some (CInt k a)) (Some (CInt k b)).

Section Vars.
  Variable kinds : nat -> kind.
  Variable size : nat -> Z.
  Variable zero : nat -> Z -> option cell.
  Variable ptrTo : nat -> nat.

  (** There is a variable of type t at p *)
  Definition is_var (m : mem) (t : nat) (p : ptr) : Prop :=
    forall o, 0 <= o < size t -> alike (cells m (fst p) (snd p + o)) (zero t o).
  (** Layout: fields are inside of their struct, and do not overlap; the elements of an array follow each other *)
  Definition layout_ok : Prop :=
    (forall t, kinds (ptrTo t) = GPtr t) /\ (forall t, 0 <= size t) /\
    (forall t fs i f, kinds t = GStruct fs -> nth_error fs i = Some f ->
       0 <= m_offset f /\ m_offset f + size (m_type f) <= size t /\
       (forall o, 0 <= o < size (m_type f) -> zero t (m_offset f + o) = zero (m_type f) o) /\
       (forall j g, nth_error fs j = Some g -> i <> j -> m_offset f + size (m_type f) <= m_offset g \/ m_offset g + size (m_type g) <= m_offset f)) /\
    (forall t n e, kinds t = GArray n e -> size t = Z.of_nat n * size e /\
       (forall i o, (0 <= i < Z.of_nat n) -> 0 <= o < size e -> zero t (i * size e + o) = zero e o)).

  (** [selects m t p path f q]: the selector that goes through the fields with these indices, from the variable of type t at p, ends in the field f
      at q.  Pointers to structs on the way are followed. *)
  Inductive selects (m : mem) : nat -> ptr -> list nat -> mfield -> ptr -> Prop :=
  | sel_last t p i fs f : kinds t = GStruct fs -> nth_error fs i = Some f -> selects m t p [i] f (plus p (m_offset f))
  | sel_struct t p i j r fs fs' f g q : kinds t = GStruct fs -> nth_error fs i = Some f -> kinds (m_type f) = GStruct fs' ->
      selects m (m_type f) (plus p (m_offset f)) (j :: r) g q -> selects m t p (i :: j :: r) g q
  | sel_pointer t p i j r fs fs' f s d g q : kinds t = GStruct fs -> nth_error fs i = Some f -> kinds (m_type f) = GPtr s -> kinds s = GStruct fs' ->
      at_ m (plus p (m_offset f)) (CPtr (Some d)) -> selects m s d (j :: r) g q -> selects m t p (i :: j :: r) g q.

  (** A variable of a type that can be nil: is it? *)
  Inductive nil_var (m : mem) : nat -> ptr -> bool -> Prop :=
  | nv_pointer t p q : match kinds t with GPtr _ | GMap _ _ | GChan | GFunc | GSlice _ => True | _ => False end ->
      at_ m p (CPtr q) -> nil_var m t p (match q with None => true | Some _ => false end)
  | nv_eface t p ty w : kinds t = GEFace -> at_ m p (CType ty) -> at_ m (plus p 8) (CPtr w) -> nil_var m t p (match ty with None => true | Some _ => false end)
  | nv_iface t p ty w : kinds t = GIFace -> at_ m p (CItab ty) -> at_ m (plus p 8) (CPtr w) -> nil_var m t p (match ty with None => true | Some _ => false end).
  (** An interface{} that is not nil but holds a nil pointer (or map, channel, function) *)
  Definition holds_nil (m : mem) (t : nat) (p : ptr) : Prop :=
    kinds t = GEFace /\ (exists ty, at_ m p (CType (Some ty))) /\ at_ m (plus p 8) (CPtr None).
End Vars.

(** [by_value t path f x]: the path leads through embedded structs (not pointers) to the field f of the innermost of them, which begins x bytes
    after the outermost *)
Inductive by_value (kinds : nat -> kind) : nat -> list nat -> mfield -> Z -> Prop :=
| bv_last t i fs f : kinds t = GStruct fs -> nth_error fs i = Some f -> by_value kinds t [i] f 0
| bv_struct t i j r fs fs' f g x : kinds t = GStruct fs -> nth_error fs i = Some f -> kinds (m_type f) = GStruct fs' ->
    by_value kinds (m_type f) (j :: r) g x -> by_value kinds t (i :: j :: r) g (m_offset f + x).
