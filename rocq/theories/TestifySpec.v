(** What the assertions of test/testify/assert are expected to do, without the definitions of the model: only its values and results. *)
From Verif Require Import Base JsonFloatModel TestifyModel.
From Flocq Require Import IEEE754.Binary IEEE754.Bits.
From Coq Require Import Permutation.
Open Scope Z_scope.
Open Scope list_scope.

(** ** Reports *)
(** An assertion that holds returns true and reports nothing; one that does not returns false and reports once. *)
Definition verdict (holds : bool) : res bool := if holds then Ret 0 true else Ret 1 false.
(** [r] is the verdict on [P] *)
Definition decides (r : res bool) (P : Prop) : Prop := (P /\ r = Ret 0 true) \/ (~ P /\ r = Ret 1 false).
(** No message, or a first one that is a string *)
Inductive goodMessages : list iface -> Prop :=
| gm_none : goodMessages []
| gm_some : forall s args, goodMessages (Some (VStr 24 s) :: args).

(** ** The text of a report *)
(** The lines of a text; the last one need not end in a newline *)
Inductive lines : bytes -> list bytes -> Prop :=
| lines_nil : lines [] []
| lines_last : forall l, l <> [] -> ~ In 10 l -> lines l [l]
| lines_more : forall l m ls, ~ In 10 l -> lines m ls -> lines (l ++ 10 :: m) (l :: ls).
(** A line without the carriage return at its end *)
Inductive chomped : bytes -> bytes -> Prop :=
| chomped_cr : forall l, chomped (l ++ [13]) l
| chomped_no : forall l, (forall l', l <> l' ++ [13]) -> chomped l l.
(** The texts joined by [sep] *)
Fixpoint joined (sep : bytes) (ls : list bytes) : bytes :=
  match ls with [] => [] | [l] => l | l :: ls => l ++ sep ++ joined sep ls end.
(** What is between two lines of a report: the next one starts below the text of the first, after a label of n bytes and a colon *)
Definition align (n : nat) : bytes := [10; 13; 9] ++ repeat 32 (n + 1) ++ [9].
(** The message: none, a string, or a format with arguments *)
Inductive messageText (sprintf : bytes -> list iface -> bytes) : list iface -> bytes -> Prop :=
| mt_none : messageText sprintf [] []
| mt_one : forall s, messageText sprintf [Some (VStr 24 s)] s
| mt_format : forall s a args, messageText sprintf (Some (VStr 24 s) :: a :: args) (sprintf s (a :: args)).
(** The longest line that is shown has fewer bytes than this *)
Definition lineLimit : Z := 65536.
Definition short (l : bytes) : Prop := Z.of_nat (List.length l) < lineLimit.
(** [shown raw out]: out are the lines of raw that are shown, in full, if there are no long ones; up to the first long one otherwise *)
Inductive shown : list bytes -> list bytes -> Prop :=
| shown_nil : shown [] []
| shown_short : forall l c ls out, short l -> chomped l c -> shown ls out -> shown (l :: ls) (c :: out)
| shown_long : forall l ls, ~ short l -> shown (l :: ls) [].

(** ** Equality *)
Section Equality.
  Variable deq : gval -> gval -> bool.
  (** reflect.DeepEqual of two interfaces *)
  Definition deepEqual (a b : iface) : Prop :=
    match a, b with None, None => True | Some a, Some b => deq a b = true | _, _ => False end.
  (** What DeepEqual is for slices of bytes *)
  Definition deqBytes : Prop := forall a w, deq (VBytes a) w = true <-> w = VBytes a.
  (** DeepEqual tells values of different types apart *)
  Definition deqTyped : Prop := forall a b, deq a b = true -> typeOf a = typeOf b.
End Equality.
Definition isFunc (a : iface) : Prop := exists v, a = Some v /\ kindOf v = 19.

(** ** Lists, lengths, emptiness *)
(** The elements of an array or slice *)
Inductive elements : gval -> list iface -> Prop :=
| el_arr : forall ty l, elements (VArr ty l) l
| el_slice : forall ty l, elements (VSlice ty (Some l)) l
| el_nilslice : forall ty, elements (VSlice ty None) []
| el_bytes : forall b, elements (VBytes (Some b)) (map (fun c => Some (VInt 8 8 c)) b)
| el_nilbytes : elements (VBytes None) [].
(** len(x), for what has a length *)
Inductive hasLen : gval -> nat -> Prop :=
| len_list : forall v l, elements v l -> hasLen v (List.length l)
| len_str : forall ty s, hasLen (VStr ty s) (List.length s)
| len_map : forall ty l, hasLen (VMap ty (Some l)) (List.length l)
| len_nilmap : forall ty, hasLen (VMap ty None) 0
| len_chan : forall ty n, hasLen (VChan ty (Some n)) n
| len_nilchan : forall ty, hasLen (VChan ty None) 0.
Section Emptiness.
  Variable deq : gval -> gval -> bool.
  Variable zero : Z -> gval.
  Variable memory : Z -> iface.
  (** Values whose emptiness is a matter of their length: lists, maps and channels, but not strings *)
  Definition byLength (v : gval) : Prop := match v with VArr _ _ | VSlice _ _ | VBytes _ | VMap _ _ | VChan _ _ => True | _ => False end.
  Definition isPtr (v : gval) : Prop := match v with VPtr _ _ => True | _ => False end.
  (** [emptiness o b]: o is empty (b = true) or is not: nil, a length of 0, a nil pointer, a pointer to an empty value, the zero value of its type *)
  Inductive emptiness : iface -> bool -> Prop :=
  | emp_nil : emptiness None true
  | emp_len : forall v n, byLength v -> hasLen v n -> emptiness (Some v) (n =? 0)%nat
  | emp_nilptr : forall ty, emptiness (Some (VPtr ty None)) true
  | emp_ptr : forall ty p b, emptiness (memory p) b -> emptiness (Some (VPtr ty (Some p))) b
  | emp_zero : forall v, ~ byLength v -> ~ isPtr v -> emptiness (Some v) (deq v (zero (typeOf v))).
  (** Following n pointers from o *)
  Inductive chain : nat -> iface -> iface -> Prop :=
  | chain_0 : forall o, chain 0 o o
  | chain_S : forall n ty p o, chain n (memory p) o -> chain (S n) (Some (VPtr ty (Some p))) o.
  (** Pointers without an end *)
  Definition endless (o : iface) : Prop := forall n, exists o', chain n o o'.
End Emptiness.

(** ** Containment *)
(** [sub] is somewhere in s *)
Definition occurs (s sub : bytes) : Prop := exists a b, s = a ++ sub ++ b.
(** What is looked for in a string: the string; for another value a text that names its type *)
Inductive sought (typeName : Z -> bytes) : iface -> bytes -> Prop :=
| sought_str : forall ty s, sought typeName (Some (VStr ty s)) s
| sought_nil : sought typeName None (bs "<invalid Value>")
| sought_other : forall v, (forall ty s, v <> VStr ty s) -> sought typeName (Some v) (bs "<" ++ typeName (typeOf v) ++ bs " Value>").
Section Containment.
  Variable deq : gval -> gval -> bool.
  Variable typeName : Z -> bytes.
  (** What can be looked in: strings, lists, maps, and channels with nothing in them *)
  Inductive container : iface -> Prop :=
  | con_str : forall ty s, container (Some (VStr ty s))
  | con_list : forall v l, elements v l -> container (Some v)
  | con_map : forall ty l, container (Some (VMap ty l))
  | con_chan : forall ty, container (Some (VChan ty (Some 0%nat)))
  | con_nilchan : forall ty, container (Some (VChan ty None)).
  (** [member s e]: a part of the string, an element of the list, a key of the map *)
  Inductive member : iface -> iface -> Prop :=
  | mem_str : forall ty s e sub, sought typeName e sub -> occurs s sub -> member (Some (VStr ty s)) e
  | mem_list : forall v l x e, elements v l -> In x l -> deepEqual deq x e -> member (Some v) e
  | mem_map : forall ty l k v e, In (k, v) l -> deepEqual deq k e -> member (Some (VMap ty (Some l))) e.
End Containment.
(** [a] is [b] in another order, up to [eq] *)
Definition rearranged (eq : iface -> iface -> Prop) (a b : list iface) : Prop := exists b', Permutation b b' /\ Forall2 eq b' a.

(** ** Numbers *)
(** The types whose values are taken as numbers: signed and unsigned integers of a fixed size, int, floats, time.Duration; not uint, uintptr or
    other types *)
Definition intTypes : list Z := [2; 3; 4; 5; 6; 8; 9; 10; 11; 52].
Definition floatTypes : list Z := [13; 14].
(** The float64 of a value: the nearest one, for integers *)
Inductive number : iface -> binary64 -> Prop :=
| num_int : forall ty k n, In ty intTypes -> number (Some (VInt ty k n)) (f64 n 0)
| num_float : forall ty k f, In ty floatTypes -> number (Some (VFloat ty k f)) f.

(** The elements of a slice *)
Definition sliceOf (v : iface) (l : list iface) : Prop := exists w, v = Some w /\ kindOf w = 23 /\ elements w l.
(** A map and what it has for a key; the keys of a map are different *)
Inductive mapOf : iface -> Z -> list (iface * iface) -> Prop :=
| map_some : forall ty l, mapOf (Some (VMap ty (Some l))) ty l
| map_nil : forall ty, mapOf (Some (VMap ty None)) ty [].
Definition mapsTo (keyEq : iface -> iface -> bool) (l : list (iface * iface)) (k v : iface) : Prop := exists k', In (k', v) l /\ keyEq k' k = true.
Definition differentKeys (keyEq : iface -> iface -> bool) (l : list (iface * iface)) : Prop :=
  forall k v v', mapsTo keyEq l k v -> mapsTo keyEq l k v' -> v = v'.

(** ** A DeepEqual and a Convert for examples: numbers, strings and bytes; integers of 8 and 64 bits *)
Definition exampleDeq (a b : gval) : bool :=
  match a, b with
  | VInt t _ n, VInt t' _ n' => (t =? t') && (n =? n')
  | VStr t s, VStr t' s' => (t =? t') && (if list_eq_dec Z.eq_dec s s' then true else false)
  | VBytes (Some b), VBytes (Some b') => if list_eq_dec Z.eq_dec b b' then true else false
  | VBytes None, VBytes None => true
  | _, _ => false
  end.
Definition exampleConvertible (a b : Z) : bool := ((a =? 6) || (a =? 8)) && ((b =? 6) || (b =? 8)).
Definition exampleConvert (v : gval) (ty : Z) : gval :=
  match v with VInt _ _ n => VInt ty ty (if ty =? 8 then n mod 256 else n) | v => v end.
Definition exampleZero (ty : Z) : gval := if ty =? 24 then VStr 24 [] else VInt ty ty 0.
Definition exampleSprintf (format : bytes) (args : list iface) : bytes := format.
Definition exampleTypeName (ty : Z) : bytes := if ty =? 2 then bs "int" else bs "T".
