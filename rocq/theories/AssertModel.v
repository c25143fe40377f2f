(** Model of the JSON assertions test/should/json.go and test/must/json.go.
    Simplifications: what encoding/json makes of a text is a parameter (a document: numbers stand for float64 values that are equal iff the
    numbers are; members of an object in some order, the last one of a name only); reflect.DeepEqual as what it is on such values;
    messages are left out; the order in which reflect's MapKeys gives the keys of a map is a parameter. *)
From Verif Require Import Base.

(** What json.Unmarshal puts into an interface{}; should/json.go:15, 32, must/json.go:16, 33 *)
Inductive doc := DNull | DBool (b : bool) | DNum (x : Z) | DStr (s : bytes) | DSlice (l : list doc) | DMap (l : list (bytes * doc)).

(** Indexing a Go map; should/json.go:62, 67 *)
Fixpoint get {V} (k : bytes) (l : list (bytes * V)) : option V :=
  match l with
  | [] => None
  | (k', v) :: l => if list_eq_dec Z.eq_dec k' k then Some v else get k l
  end.
(** delete of a key; must/json.go:107 *)
Definition del {V} (k : bytes) (l : list (bytes * V)) : list (bytes * V) := filter (fun p => if list_eq_dec Z.eq_dec (fst p) k then false else true) l.
(** Setting the element of a key; should/json.go:64, must/json.go:108, 118, 126 *)
Definition put {V} (k : bytes) (v : V) (l : list (bytes * V)) : list (bytes * V) := (k, v) :: del k l.

(** How an assertion (should/json.go:11-50, must/json.go:12-51) ends: it lets the test go on as passed, it fails the test, or it panics (which fails it, too) *)
Inductive result := Passes | Fails | Panics.

(** reflect.DeepEqual, by assert.Equal (testify/assert/assertions.go:39-54, 304); should/json.go:39 *)
Fixpoint docEqual (x y : doc) : bool :=
  match x, y with
  | DNull, DNull => true
  | DBool a, DBool b => Bool.eqb a b
  | DNum a, DNum b => a =? b
  | DStr a, DStr b => if list_eq_dec Z.eq_dec a b then true else false
  | DSlice l, DSlice m =>
    (fix both l m := match l, m with [], [] => true | a :: l, b :: m => docEqual a b && both l m | _, _ => false end) l m
  | DMap l, DMap m =>
    Nat.eqb (List.length l) (List.length m) &&
    (fix all l := match l with [] => true | (k, a) :: l => match get k m with Some b => docEqual a b | None => false end && all l end) l
  | _, _ => false
  end.

(** * should.JsonEqual *)
Section Should.
  (** The order of the keys of the map at a path; should/json.go:60 *)
  Variable order : list bytes -> list bytes -> list bytes.

  (** should/json.go:52-70: what the actual value has become; [None]: panic (null: the Kind of a nil Type, line 53; a missing key: Interface of the
      zero Value, line 67).  [n] bounds the depth of the expected value. *)
  Fixpoint maskAnything (n : nat) (path : list bytes) (expected actual : doc) : option doc :=
    match n with
    | O => None
    | S n =>
      match expected with
      | DNull => None
      | DMap em =>
        match actual with
        | DMap am =>
          (fix loop keys am :=
             match keys with
             | [] => Some (DMap am)
             | key :: keys =>
               match get key em with
               | None => None
               | Some (DStr s) =>
                 if list_eq_dec Z.eq_dec s (bs "ANYTHING") then loop keys (put key (DStr (bs "ANYTHING")) am)
                 else match get key am with Some _ => loop keys am | None => None end
               | Some elem =>
                 let? a := get key am in
                 let? a := maskAnything n (path ++ [key]) elem a in
                 loop keys (put key a am)
               end
             end) (order path (map fst em)) am
        | _ => Some actual
        end
      | _ => Some actual
      end
    end.
End Should.

(** The depth of a value, for the bound; should/json.go:52-70 recurses as deep *)
Fixpoint depth (d : doc) : nat :=
  match d with
  | DSlice l => S ((fix go l := match l with [] => O | x :: l => Nat.max (depth x) (go l) end) l)
  | DMap l => S ((fix go l := match l with [] => O | (_, x) :: l => Nat.max (depth x) (go l) end) l)
  | _ => 1%nat
  end.

(** The second argument: a string, a []byte, or anything else, of which json.Marshal makes a text or an error; should/json.go:21-30 *)
Inductive argument := AString (s : bytes) | ABytes (s : bytes) | AOther (marshalled : option bytes).

Section JsonEqual.
  (** json.Unmarshal *)
  Variable decode : bytes -> option doc.
  (** should/json.go:11-50 *)
  Definition shouldJsonEqual (order : list bytes -> list bytes -> list bytes) (expected : bytes) (actual : argument) : result :=
    match decode expected with
    | None => Fails
    | Some expectedObj =>
      let json :=
        match actual with
        | AString s => inl s
        | ABytes s => inl s
        | AOther None => inr Fails
        | AOther (Some _) => inr Panics (* the error is nil: nil.Error(), line 28 *)
        end in
      match json with
      | inr r => r
      | inl s =>
        match decode s with
        | None => Fails
        | Some actualObj =>
          match maskAnything order (depth expectedObj) [] expectedObj actualObj with
          | None => Panics
          | Some actualObj => if docEqual expectedObj actualObj then Passes else Fails
          end
        end
      end
    end.
End JsonEqual.

(** * must.JsonEqual *)
(** The maps live on the heap.  Their address: whether they were made from the expected or the actual document, and where they were in it; must/json.go:16, 33 *)
Inductive place := PKey (k : bytes) | PIndex (i : nat).
Definition addr : Type := bool * list place.
(** Values: must/json.go:15, 32; slices are never written to *)
Inductive hv := HNull | HBool (b : bool) | HNum (x : Z) | HStr (s : bytes) | HSlice (l : list hv) | HMap (a : addr).
(** The maps: must/json.go:16, 33 *)
Definition heap := addr -> list (bytes * hv).

(** must/json.go:16, 33: the value of a document *)
Fixpoint load (side : bool) (p : list place) (d : doc) : hv :=
  match d with
  | DNull => HNull | DBool b => HBool b | DNum x => HNum x | DStr s => HStr s
  | DSlice l => HSlice ((fix go i l := match l with [] => [] | x :: l => load side (p ++ [PIndex i]) x :: go (S i) l end) O l)
  | DMap _ => HMap (side, p)
  end.
(** The part of a document at a path; must/json.go:16, 33 *)
Fixpoint part (d : doc) (p : list place) : option doc :=
  match p with
  | [] => Some d
  | PKey k :: p => match d with DMap l => let? x := get k l in part x p | _ => None end
  | PIndex i :: p => match d with DSlice l => let? x := nth_error l i in part x p | _ => None end
  end.
(** must/json.go:16, 33: the maps of the two documents *)
Definition heapOf (expected actual : doc) : heap := fun '(side, p) =>
  match part (if side : bool then expected else actual) p with
  | Some (DMap l) => map (fun '(k, x) => (k, load side (p ++ [PKey k]) x)) l
  | _ => []
  end.

(** reflect.DeepEqual on the heap; must/json.go:40, 87.  The documents and what JsonEqual makes of them are finite: [n] bounds the depth. *)
Fixpoint deepEqual (n : nat) (h : heap) (x y : hv) : bool :=
  match n with
  | O => false
  | S n =>
    match x, y with
    | HNull, HNull => true
    | HBool a, HBool b => Bool.eqb a b
    | HNum a, HNum b => a =? b
    | HStr a, HStr b => if list_eq_dec Z.eq_dec a b then true else false
    | HSlice l, HSlice m =>
      (fix both l m := match l, m with [], [] => true | a :: l, b :: m => deepEqual n h a b && both l m | _, _ => false end) l m
    | HMap a, HMap b =>
      Nat.eqb (List.length (h a)) (List.length (h b)) &&
      forallb (fun '(k, v) => match get k (h b) with Some w => deepEqual n h v w | None => false end) (h a)
    | _, _ => false
    end
  end.

(** What the function literal of must/json.go:103-109 captures: the two maps and the key *)
Record closure := mkClosure { cExpected : addr; cActual : addr; cKey : bytes }.
(** must/json.go:53-56 *)
Record variable := mkVariable { value : hv; subs : list closure }.
(** The heap, vars (must/json.go:58), and the number of maps gone through so far *)
Record state := mkState { hp : heap; vars : list (bytes * variable); visits : nat }.
(** A step that returns, panics, or ends the test by t.Fatal; or did not end with that fuel; must/json.go:60-152 *)
Inductive outcome := Done (s : state) | Panicked | Fatal | Unfinished.

(** must/json.go:102, 125 *)
Definition isVar (s : bytes) : bool := match s with c :: _ => (c =? 123) && (last s 0 =? 125) | [] => false end.
(** The same map?  References to maps are equal or not; must/json.go:107 *)
Definition place_eq (x y : place) : {x = y} + {x <> y}.
Proof. decide equality; [apply (list_eq_dec Z.eq_dec)|apply Nat.eq_dec]. Defined.
Definition addr_eq (x y : addr) : {x = y} + {x <> y}.
Proof. decide equality; [apply (list_eq_dec place_eq)|apply bool_dec]. Defined.
(** must/json.go:107-108, 118, 126: SetMapIndex *)
Definition setMap (s : state) (a : addr) (m : list (bytes * hv)) : state :=
  mkState (fun b => if addr_eq b a then m else hp s b) (vars s) (visits s).
(** must/json.go:63, 76, 83-84 *)
Definition setVar (s : state) (name : bytes) (v : variable) : state := mkState (hp s) (put name v (vars s)) (visits s).

Section Must.
  (** The order of the keys of the map gone through as the n-th; must/json.go:98 *)
  Variable order : nat -> list bytes -> list bytes.
  (** For [deepEqual] *)
  Variable size : nat.

  (** must/json.go:90-152 *)
  Fixpoint substituteVars (fuel : nat) (s : state) (expected actual : hv) {struct fuel} : outcome :=
    match fuel with
    | O => Unfinished
    | S fuel =>
      match expected with
      | HNull => Panicked (* the Kind of a nil Type; must/json.go:91 *)
      | HMap em =>
        match actual with
        | HMap am =>
          (** must/json.go:96-136 *)
          (fix loop (keys : list bytes) (s : state) : outcome :=
             match keys with
             | [] => Done s
             | key :: keys =>
               let continue o := match o with Done s => loop keys s | o => o end in
               match (if isVar key then sub fuel s key (mkClosure em am key) else Done s) with
               | Done s =>
                 match get key (hp s em) with
                 | None => loop keys s
                 | Some HNull => Panicked (* must/json.go:115 *)
                 | Some (HStr varName) =>
                   if list_eq_dec Z.eq_dec varName (bs "{ANYTHING}") then loop keys (setMap s am (put key (HStr (bs "{ANYTHING}")) (hp s am)))
                   else
                     match get key (hp s am) with
                     | None => loop keys s
                     | Some actualElem =>
                       if isVar varName then continue (bind fuel (setMap s em (put key actualElem (hp s em))) varName actualElem)
                       else loop keys s (* a string: must/json.go:135 does nothing *)
                     end
                 | Some expectedElem =>
                   match get key (hp s am) with
                   | None => loop keys s
                   | Some actualElem => continue (substituteVars fuel s expectedElem actualElem)
                   end
                 end
               | o => o
               end
             end) (order (visits s) (map fst (hp s em))) (mkState (hp s) (vars s) (S (visits s)))
        | _ => Done s
        end
      | HSlice l =>
        match actual with
        | HSlice m =>
          (** must/json.go:137-151; Index panics beyond the length *)
          (fix loop (l m : list hv) (s : state) : outcome :=
             match l, m with
             | [], _ => Done s
             | x :: l, y :: m => match substituteVars fuel s x y with Done s => loop l m s | o => o end
             | _ :: _, [] => Panicked
             end) l m s
        | _ => Done s
        end
      | _ => Done s
      end
    end
  (** must/json.go:60-71 *)
  with sub (fuel : nat) (s : state) (varName : bytes) (c : closure) {struct fuel} : outcome :=
    match fuel with
    | O => Unfinished
    | S fuel =>
      match get varName (vars s) with
      | None => Done (setVar s varName (mkVariable HNull [c]))
      | Some v =>
        match subs v with
        | [] => call fuel s c (value v)
        | _ :: _ => Done (setVar s varName (mkVariable (value v) (subs v ++ [c])))
        end
      end
    end
  (** must/json.go:103-109: expectedElem or actualElem may be the zero Value, whose Interface panics; a key that is no string panics *)
  with call (fuel : nat) (s : state) (c : closure) (v : hv) {struct fuel} : outcome :=
    match fuel with
    | O => Unfinished
    | S fuel =>
      match v with
      | HStr name =>
        match get (cKey c) (hp s (cExpected c)), get name (hp s (cActual c)) with
        | Some expectedElem, Some actualElem =>
          match substituteVars fuel s expectedElem actualElem with
          | Done s =>
            let s := setMap s (cExpected c) (del (cKey c) (hp s (cExpected c))) in
            Done (setMap s (cExpected c) (put name expectedElem (hp s (cExpected c))))
          | o => o
          end
        | _, _ => Panicked
        end
      | _ => Panicked
      end
    end
  (** must/json.go:73-88; the slice of subs is fixed when the loop begins *)
  with bind (fuel : nat) (s : state) (varName : bytes) (varValue : hv) {struct fuel} : outcome :=
    match fuel with
    | O => Unfinished
    | S fuel =>
      match get varName (vars s) with
      | None => Done (setVar s varName (mkVariable varValue []))
      | Some v =>
        match subs v with
        | [] => if deepEqual size (hp s) (value v) varValue then Done s else Fatal
        | _ :: _ =>
          match (fix loop l s := match l with [] => Done s | c :: l => match call fuel s c varValue with Done s => loop l s | o => o end end) (subs v) s with
          | Done s => Done (setVar s varName (mkVariable varValue []))
          | o => o
          end
        end
      end
    end.
End Must.

Section MustJsonEqual.
  (** json.Unmarshal *)
  Variable decode : bytes -> option doc.
  (** must/json.go:12-51; [None]: did not end with that fuel *)
  Definition mustJsonEqual (order : nat -> list bytes -> list bytes) (fuel : nat) (expected : bytes) (actual : argument) : option result :=
    match decode expected with
    | None => Some Fails
    | Some e =>
      let json :=
        match actual with
        | AString s => inl s
        | ABytes s => inl s
        | AOther None => inr Fails
        | AOther (Some _) => inr Panics (* the error is nil: nil.Error(), line 29 *)
        end in
      match json with
      | inr r => Some r
      | inl s =>
        match decode s with
        | None => Some Fails
        | Some a =>
          let size := (depth e + depth a)%nat in
          match substituteVars order size fuel (mkState (heapOf e a) [] 0) (load true [] e) (load false [] a) with
          | Done s => Some (if deepEqual size (hp s) (load true [] e) (load false [] a) then Passes else Fails)
          | Panicked => Some Panics
          | Fatal => Some Fails
          | Unfinished => None
          end
        end
      end
    end.
End MustJsonEqual.
