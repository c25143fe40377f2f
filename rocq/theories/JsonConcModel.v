(** Model of how jsonfmt makes and keeps encoders in several goroutines (msgfmt/jsonfmt/encoder.go:56-100, 103-176, 184-240, encoder_map.go:54-63): what JsonCompModel leaves out, the two caches.

    A call is a program whose steps are the accesses to the caches; what it does between two of them touches nothing that others use, so it is part of the step before.  onePtrInterfaceEncoder (72-74) is
    left out as in JsonCompModel; there are no extensions (ConfigDefault, 37).  The prefix that mapInterfaceKeyEncoder keeps (encoder_map.go:56) is given with the call. *)
From Verif Require Import Base JsonCompModel.
Open Scope list_scope.

(** What is left to be done: give a result, or recurse for ever, or access encoderCache (encoder.go:58, 67, 75) or mapKeyEncoderCache (81, 86) and go on *)
Inductive prog (A : Type) :=
| Ret (a : A)
| Never
| LoadE (t : nat) (f : option encoder -> prog A)
| StoreE (t : nat) (e : encoder) (p : prog A)
| LoadK (k : nat) (f : option keyenc -> prog A)
| StoreK (k : nat) (e : keyenc) (p : prog A).
Arguments Ret {A}. Arguments Never {A}. Arguments LoadE {A}. Arguments StoreE {A}. Arguments LoadK {A}. Arguments StoreK {A}.
(** First one, then the other; the calls within encoder.go:56-240 *)
Fixpoint bind {A B} (p : prog A) (q : A -> prog B) : prog B :=
  match p with
  | Ret a => q a
  | Never => Never
  | LoadE t f => LoadE t (fun x => bind (f x) q)
  | StoreE t e p => StoreE t e (bind p q)
  | LoadK k f => LoadK k (fun x => bind (f x) q)
  | StoreK k e p => StoreK k e (bind p q)
  end.

Section Build.
  (** As in JsonCompModel *)
  Variable types : nat -> shape.
  Variable typeName : nat -> bytes.

  (** encoder.go:79-88 and 197-206, given encoderOf *)
  Definition encoderOfMapKey (rec : bytes -> nat -> prog encoder) (prefix : bytes) (k : nat) : prog keyenc :=
    LoadK k (fun found =>
      match found with
      | Some e => Ret e
      | None => bind (rec (prefix ++ bs " [mapKey]") k) (fun e => let ke := keyEncoderOf types k e in StoreK k ke (Ret ke))
      end).
  (** encoder.go:216-240, the loop over the fields, given encoderOf *)
  Fixpoint encoderOfFields (rec : bytes -> nat -> prog encoder) (i : nat) (first : bool) (fs : list field) : prog (list (nat * bytes * encoder)) :=
    match fs with
    | [] => Ret []
    | f :: r =>
      let name := getFieldName types f in
      if is_nil name then encoderOfFields rec (S i) first r
      else
        let prefix := fieldPrefix first name in
        bind (rec (prefix ++ bs " ." ++ name) (f_type f)) (fun e => bind (encoderOfFields rec (S i) false r) (fun l => Ret ((i, prefix, e) :: l)))
    end.
  (** encoder.go:103-176, 184-195; [Never]: the recursion is deeper than [fuel] *)
  Fixpoint encoderOfType (fuel : nat) (prefix : bytes) (t : nat) : prog encoder :=
    match fuel with
    | O => Never
    | S fuel =>
      match types t with
      | SBytes => Ret EBytes
      | SErr => Ret EErr
      | SMarsh => Ret EMarsh
      | SBool => Ret EBool
      | SInt k => Ret (EInt k)
      | SFloat64 => Ret EFloat64
      | SFloat32 => Ret EFloat32
      | SString => Ret EStr
      | SPtr t' => bind (encoderOfType fuel (prefix ++ bs " [ptrElem]") t') (fun e => Ret (EPtr e))
      | SSlice t' => bind (encoderOfType fuel (prefix ++ bs " [sliceElem]") t') (fun e => Ret (ESlice e))
      | SArray n t' => bind (encoderOfType fuel (prefix ++ bs " [sliceElem]") t') (fun e => Ret (EArray n e))
      | SStruct fs => bind (encoderOfFields (encoderOfType fuel) 0 true fs) (fun l => Ret (EStruct l))
      | SMap k t' =>
        bind (encoderOfMapKey (encoderOfType fuel) prefix k) (fun ek =>
        bind (encoderOfType fuel (prefix ++ bs " [mapElem]") t') (fun e => Ret (EMap ek e)))
      | SIface | SMethods => Ret EDynamic
      | SFunc | SChan | SOther => Ret (EUnsupported (bs """can not encode " ++ typeName t ++ bs " " ++ prefix ++ bs " to json"""))
      end
    end.
  (** encoder.go:65-77 *)
  Definition EncoderOfType (fuel : nat) (t : nat) : prog encoder :=
    LoadE t (fun found => match found with Some e => Ret e | None => bind (encoderOfType fuel [] t) (fun e => StoreE t e (Ret e)) end).
  (** encoder.go:56-63 *)
  Definition EncoderOfObject (fuel : nat) (t : nat) : prog encoder :=
    LoadE t (fun found => match found with Some e => Ret e | None => EncoderOfType fuel t end).

  (** EncoderOf (encoder.go:65), EncoderOfObject of an object of the type (56), the encoder of a key in an interface (encoder_map.go:61) *)
  Inductive call := CType (t : nat) | CObject (t : nat) | CKey (prefix : bytes) (t : nat).
  (** An encoder or one of a key: encoder.go:65, 79 *)
  Definition result : Type := encoder + keyenc.
  (** encoder.go:56-88 *)
  Definition program (fuel : nat) (c : call) : prog result :=
    match c with
    | CType t => bind (EncoderOfType fuel t) (fun e => Ret (inl e))
    | CObject t => bind (EncoderOfObject fuel t) (fun e => Ret (inl e))
    | CKey p t => bind (encoderOfMapKey (encoderOfType fuel) p t) (fun e => Ret (inr e))
    end.

  (** encoderCache, mapKeyEncoderCache (encoder.go:43-44; the last Store first), and the calls *)
  Record state := mkState { ecache : list (nat * encoder); kcache : list (nat * keyenc); calls : nat -> option (call * prog result) }.
  (** concurrent.Map.Load: encoder.go:58, 67, 81 *)
  Fixpoint find {A} (c : list (nat * A)) (k : nat) : option A :=
    match c with
    | [] => None
    | (k', x) :: c => if (k' =? k)%nat then Some x else find c k
    end.
  (** A call begins, or makes its next access to a cache; encoder.go:56-88 *)
  Inductive event := Begin (g : nat) (c : call) | Step (g : nat).
  (** The calls after a step of one of them; encoder.go:56-88 *)
  Definition set (f : nat -> option (call * prog result)) (g : nat) (x : call * prog result) : nat -> option (call * prog result) := fun v => if (v =? g)%nat then Some x else f v.
  (** encoder.go:56-88, one access; [None]: not possible *)
  Definition step (fuel : nat) (s : state) (e : event) : option state :=
    match e with
    | Begin g c => match calls s g with None => Some (mkState (ecache s) (kcache s) (set (calls s) g (c, program fuel c))) | Some _ => None end
    | Step g =>
      match calls s g with
      | Some (c, LoadE t f) => Some (mkState (ecache s) (kcache s) (set (calls s) g (c, f (find (ecache s) t))))
      | Some (c, StoreE t e p) => Some (mkState ((t, e) :: ecache s) (kcache s) (set (calls s) g (c, p)))
      | Some (c, LoadK k f) => Some (mkState (ecache s) (kcache s) (set (calls s) g (c, f (find (kcache s) k))))
      | Some (c, StoreK k e p) => Some (mkState (ecache s) ((k, e) :: kcache s) (set (calls s) g (c, p)))
      | _ => None
      end
    end.
  (** encoder.go:56-88, many accesses *)
  Fixpoint run (fuel : nat) (s : state) (evs : list event) : option state :=
    match evs with
    | [] => Some s
    | e :: evs => match step fuel s e with Some s' => run fuel s' evs | None => None end
    end.
  (** encoder.go:37, 47-54 *)
  Definition init : state := mkState [] [] (fun _ => None).
End Build.
