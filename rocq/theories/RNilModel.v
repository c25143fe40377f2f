(** Model of the functions of reflect2/reflect2.go on any object: IsNil, IsNullable, PtrOf, RTypeOf, NoEscape.  Citations without a directory are to reflect2. *)
From Verif Require Import Base MemModel.

(** reflect2.go:231-236, with unpackEFace (unsafe_eface.go:13-15) *)
Definition IsNil (obj : eface) : bool :=
  match obj with
  | None => true
  | Some (_, data) => match data with None => true | Some _ => false end
  end.
(** reflect2.go:238-244 *)
Definition IsNullable (k : kind) : bool :=
  match k with GPtr _ | GMap _ _ | GChan | GFunc | GSlice _ | GEFace | GIFace => true | _ => false end.
(** reflect2.go:223-225; the data word of nil is nil *)
Definition PtrOf (obj : eface) : option ptr := match obj with None => None | Some (_, data) => data end.
(** reflect2.go:227-229; None: 0 *)
Definition RTypeOf (obj : eface) : option nat := match obj with None => None | Some (t, _) => Some t end.
(** reflect2.go:279-282: x ^ 0 of the address *)
Definition NoEscape (p : Z) : Z := Z.lxor p 0.
