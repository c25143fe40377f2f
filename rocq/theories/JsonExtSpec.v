(** Which extension gives an encoder, which fields are shown, and when extensions end the recursion. *)
From Verif Require Import Base JsonCompModel JsonCompSpec JsonExtModel.
Open Scope list_scope.

(** The first of the extensions that gives an encoder gives this one *)
Definition claims (exts : list (bytes -> nat -> option nat)) (p : bytes) (t : nat) (id : nat) : Prop :=
  exists l1 x l2, exts = l1 ++ x :: l2 /\ x p t = Some id /\ forall y, In y l1 -> y p t = None.
(** None of them gives one *)
Definition silent (exts : list (bytes -> nat -> option nat)) (p : bytes) (t : nat) : Prop := forall x, In x exts -> x p t = None.

(** An encoder made without extensions *)
Fixpoint embed (e : encoder) : xenc :=
  match e with
  | EPtr e => XPtr (embed e)
  | ESlice e => XSlice (embed e)
  | EArray n e => XArray n (embed e)
  | EStruct fs => XStruct (map (fun x => match x with (i, e) => (i, embed e) end) fs)
  | EMap k e => XMap (embedK k) (embed e)
  | e => XLeaf e
  end
with embedK (k : keyenc) : xkey :=
  match k with
  | KString e => XKString (embed e)
  | KNumber e => XKNumber (embed e)
  | KInterface => XKInterface
  | KMethods => XKMethods
  end.
(** No extension has given a part of it *)
Fixpoint untouched (e : xenc) : bool :=
  match e with
  | XExt _ => false
  | XLeaf _ => true
  | XPtr e | XSlice e | XArray _ e => untouched e
  | XStruct fs => forallb (fun x => match x with (_, e) => untouched e end) fs
  | XMap k e => untouchedK k && untouched e
  end
with untouchedK (k : xkey) : bool := match k with XKString e | XKNumber e => untouched e | _ => true end.

Section Fields.
  Variable types : nat -> shape.
  Variable unexported : bool.
  (** Under which name a field is shown *)
  Definition eligible (f : field) : Prop :=
    (unexported = true \/ exists c r, f_name f = c :: r /\ (65 <= c <= 90 \/ 192 <= c <= 222 /\ c <> 215)) /\ types (f_type f) <> SFunc /\ types (f_type f) <> SChan.
  Inductive shown : field -> option bytes -> Prop :=
  | sh_hidden f : ~ eligible f -> shown f None
  | sh_dash f : eligible f -> tag_name (f_tag f) (bs "-") -> shown f None
  | sh_own f : eligible f -> tag_name (f_tag f) [] -> shown f (Some (f_name f))
  | sh_tag f name : eligible f -> tag_name (f_tag f) name -> name <> [] -> name <> bs "-" -> shown f (Some name).
  (** The fields of the encoder of a struct: those that are shown, in order, with commas between them *)
  Inductive fields_are (rec : bytes -> nat -> xenc -> Prop) : nat -> bool -> list field -> list (nat * bytes * xenc) -> Prop :=
  | fa_nil i b : fields_are rec i b [] []
  | fa_skip i b f fs l : shown f None -> fields_are rec (S i) b fs l -> fields_are rec i b (f :: fs) l
  | fa_keep i (b : bool) f name text e fs l : shown f (Some name) -> text = (if b then [] else bs ",") ++ bs """" ++ name ++ bs """:" -> rec (text ++ bs " ." ++ name) (f_type f) e ->
      fields_are rec (S i) false fs l -> fields_are rec i b (f :: fs) ((i, text, e) :: l).

  Variable exts : list (bytes -> nat -> option nat).
  (** The types whose encoders are parts *)
  Definition part (t t' : nat) : Prop :=
    match types t with
    | SPtr x | SSlice x | SArray _ x => t' = x
    | SMap k x => t' = k \/ t' = x
    | SStruct fs => exists f name, In f fs /\ shown f (Some name) /\ t' = f_type f
    | _ => False
    end.
  (** Going from types to their parts, one comes to an extension that gives an encoder whatever the prefix, or to an end *)
  Inductive settled : nat -> Prop :=
  | st_ext t : (forall p, ~ silent exts p t) -> settled t
  | st_parts t : (forall t', part t t' -> settled t') -> settled t.
End Fields.
