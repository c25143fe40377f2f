(** When two encoders do the same. *)
From Verif Require Import Base JsonCompModel.
Open Scope list_scope.

(** An encoder without the texts for types that can not be encoded *)
Fixpoint strip (e : encoder) : encoder :=
  match e with
  | EUnsupported _ => EUnsupported []
  | EPtr e => EPtr (strip e)
  | ESlice e => ESlice (strip e)
  | EArray n e => EArray n (strip e)
  | EStruct fs => EStruct (map (fun x => match x with (i, e) => (i, strip e) end) fs)
  | EMap k e => EMap (stripK k) (strip e)
  | _ => e
  end
with stripK (k : keyenc) : keyenc :=
  match k with
  | KString e => KString (strip e)
  | KNumber e => KNumber (strip e)
  | _ => k
  end.
(** An encoder without those texts in the encoders of keys *)
Fixpoint strip_keys (e : encoder) : encoder :=
  match e with
  | EPtr e => EPtr (strip_keys e)
  | ESlice e => ESlice (strip_keys e)
  | EArray n e => EArray n (strip_keys e)
  | EStruct fs => EStruct (map (fun x => match x with (i, e) => (i, strip_keys e) end) fs)
  | EMap k e => EMap (stripK k) (strip_keys e)
  | _ => e
  end.
(** No type in it that can not be encoded *)
Fixpoint clean (e : encoder) : bool :=
  match e with
  | EUnsupported _ => false
  | EPtr e | ESlice e | EArray _ e => clean e
  | EStruct fs => forallb (fun x => match x with (_, e) => clean e end) fs
  | EMap k e => cleanK k && clean e
  | _ => true
  end
with cleanK (k : keyenc) : bool := match k with KString e | KNumber e => clean e | _ => true end.
(** None as a key or in one *)
Fixpoint clean_keys (e : encoder) : bool :=
  match e with
  | EPtr e | ESlice e | EArray _ e => clean_keys e
  | EStruct fs => forallb (fun x => match x with (_, e) => clean_keys e end) fs
  | EMap k e => cleanK k && clean_keys e
  | _ => true
  end.
