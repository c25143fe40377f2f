(** Go's rule for selectors (x.f denotes the field at the shallowest depth where there is an f, if there is exactly one there), for paths of fields. *)
From Verif Require Import Base RFieldModel.
Open Scope list_scope.

Section Spec.
  Variable types : list rtype.
  Definition is_struct (t : nat) (fs : list rfield) : Prop := nth_error types t = Some (RStruct fs).
  (** An embedded field brings in a struct type: its own, or the one it points to *)
  Definition brings (f : rfield) (t : nat) : Prop :=
    r_embedded f = true /\ (exists fs, is_struct t fs) /\ (r_type f = t \/ nth_error types (r_type f) = Some (RPtr t)).
  (** The path of embedded fields p leads from the struct type root to the struct type t *)
  Inductive leads (root : nat) : list nat -> nat -> Prop :=
  | l_here : leads root [] root
  | l_step p t fs i f t' : leads root p t -> is_struct t fs -> nth_error fs i = Some f -> brings f t' -> leads root (p ++ [i]) t'.
  (** The field f at the path has a name that is asked for *)
  Definition named_at (root : nat) (asked : bytes -> bool) (path : list nat) (f : rfield) : Prop :=
    exists p t fs i, path = p ++ [i] /\ leads root p t /\ is_struct t fs /\ nth_error fs i = Some f /\ asked (r_name f) = true.
  (** It is the only one at the shallowest depth *)
  Definition selects (root : nat) (asked : bytes -> bool) (path : list nat) (f : rfield) : Prop :=
    named_at root asked path f /\ forall path' f', named_at root asked path' f' -> path' = path \/ (List.length path < List.length path')%nat.
  (** Names are there, and differ within a struct, except for the blank one *)
  Definition proper_names : Prop := forall t fs, is_struct t fs ->
    (forall f, In f fs -> r_name f <> []) /\
    (forall i j f g, nth_error fs i = Some f -> nth_error fs j = Some g -> r_name f = r_name g -> r_name f <> bs "_" -> i = j).
  (** The offset of a field from the start of the outermost struct, for a path without pointers *)
  Inductive total_offset : nat -> list nat -> Z -> Prop :=
  | o_last t fs i f : is_struct t fs -> nth_error fs i = Some f -> total_offset t [i] (r_offset f)
  | o_in t fs i f p o : is_struct t fs -> nth_error fs i = Some f -> total_offset (r_type f) p o -> total_offset t (i :: p) (r_offset f + o)%Z.
End Spec.
