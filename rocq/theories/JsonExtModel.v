(** Model of jsonfmt with a Config of one's own (msgfmt/jsonfmt/encoder.go:27-54, 103-263): extensions, and fields that are not exported.  JsonCompModel is about ConfigDefault. *)
From Verif Require Import Base JsonCompModel.
Open Scope list_scope.

(** Encoders, encoder.go:103-240; [XExt]: one that an extension has given, [XLeaf]: one of JsonCompModel without encoders in it *)
Inductive xenc :=
| XExt (id : nat) | XLeaf (e : encoder)
| XPtr (e : xenc) | XSlice (e : xenc) | XArray (n : nat) (e : xenc)
| XStruct (fs : list (nat * bytes * xenc))
| XMap (k : xkey) (e : xenc)
(** encoder.go:197-206 *)
with xkey := XKString (e : xenc) | XKNumber (e : xenc) | XKInterface | XKMethods.

Section Build.
  (** As in JsonCompModel *)
  Variable types : nat -> shape.
  Variable typeName : nat -> bytes.
  (** Config.IncludesUnexported (encoder.go:28) *)
  Variable unexported : bool.
  (** Config.Extensions (encoder.go:29): what EncoderOf (24) answers for a prefix and a type, nil or an encoder.  An extension answers the same whenever it is asked the same. *)
  Variable exts : list (bytes -> nat -> option nat).

  (** encoder.go:104-109 *)
  Fixpoint ask (l : list (bytes -> nat -> option nat)) (prefix : bytes) (t : nat) : option nat :=
    match l with
    | [] => None
    | x :: l => match x prefix t with Some id => Some id | None => ask l prefix t end
    end.
  (** encoder.go:242-264 *)
  Definition getFieldNameX (f : field) : bytes :=
    if negb unexported && negb (isUpperLatin1 (hd 0 (f_name f))) then []
    else match types (f_type f) with
    | SFunc => [] | SChan => []
    | _ =>
      if is_nil (f_tag f) then f_name f
      else
        let part := untilComma (f_tag f) in
        if (lenZ part =? 1) && (hd 0 part =? 45) then []
        else if is_nil part then f_name f
        else part
    end.
  (** encoder.go:216-240, the loop over the fields, given the recursive call; the prefix of the struct is not used *)
  Fixpoint structFieldsX (rec : bytes -> nat -> option xenc) (i : nat) (first : bool) (fs : list field) : option (list (nat * bytes * xenc)) :=
    match fs with
    | [] => Some []
    | f :: r =>
      let name := getFieldNameX f in
      if is_nil name then structFieldsX rec (S i) first r
      else
        let prefix := fieldPrefix first name in
        let? e := rec (prefix ++ bs " ." ++ name) (f_type f) in
        let? l := structFieldsX rec (S i) false r in
        Some ((i, prefix, e) :: l)
    end.
  (** encoder.go:197-206, given the encoder of the key type; the cache (79-88) is left out, as if the config were new and had seen no other map (C139) *)
  Definition keyEncoderOfX (k : nat) (e : xenc) : xkey :=
    match types k with
    | SString | SBytes => XKString e
    | SIface => XKInterface
    | SMethods => XKMethods
    | _ => XKNumber e
    end.
  (** encoder.go:103-176; [None]: the recursion is deeper than [fuel] *)
  Fixpoint encoderOfX (fuel : nat) (prefix : bytes) (t : nat) : option xenc :=
    match fuel with
    | O => None
    | S fuel =>
      match ask exts prefix t with
      | Some id => Some (XExt id)
      | None =>
        match types t with
        | SBytes => Some (XLeaf EBytes)
        | SErr => Some (XLeaf EErr)
        | SMarsh => Some (XLeaf EMarsh)
        | SBool => Some (XLeaf EBool)
        | SInt k => Some (XLeaf (EInt k))
        | SFloat64 => Some (XLeaf EFloat64)
        | SFloat32 => Some (XLeaf EFloat32)
        | SString => Some (XLeaf EStr)
        | SPtr t' => let? e := encoderOfX fuel (prefix ++ bs " [ptrElem]") t' in Some (XPtr e)
        | SSlice t' => let? e := encoderOfX fuel (prefix ++ bs " [sliceElem]") t' in Some (XSlice e)
        | SArray n t' => let? e := encoderOfX fuel (prefix ++ bs " [sliceElem]") t' in Some (XArray n e)
        | SStruct fs => let? l := structFieldsX (encoderOfX fuel) 0 true fs in Some (XStruct l)
        | SMap k t' =>
          let? ek := encoderOfX fuel (prefix ++ bs " [mapKey]") k in
          let? e := encoderOfX fuel (prefix ++ bs " [mapElem]") t' in
          Some (XMap (keyEncoderOfX k ek) e)
        | SIface | SMethods => Some (XLeaf EDynamic)
        | SFunc | SChan | SOther => Some (XLeaf (EUnsupported (bs """can not encode " ++ typeName t ++ bs " " ++ prefix ++ bs " to json""")))
        end
      end
    end.
End Build.
