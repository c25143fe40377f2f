(** Model of the memory of countlog/stats: the keys, counters and points of a window, and who can write to them. *)
From Verif Require Import Base MsgfmtModel StatsModel.

(** A Go string: a part of a block of bytes.  A string of an event can be on the stack of the caller of countlog
    (countlog.go:187-189 hides the properties from the escape analysis), which is written to again later; window.go:218-223 copies
    it therefore. *)
Record str := mkStr { sblock : nat; soff : nat; slen : nat }.
(** The key of a MapMonoid (state.go:47): the int 0 of window.go:146, or an interface of type [len]string whose word is the
    address of an array (window.go:207-209 and 224-225). *)
Inductive key := KZero | KArray (len : nat) (array : nat).
(** A []string: window.go:71, state.go:12. *)
Record slice := mkSlice { sarray : nat; sfrom : nat; slength : nat; scap : nat }.

(** The memory: blocks of bytes, arrays of strings, the counters behind the *CounterMonoid's, the MapMonoid's (state.go:30, 47).
    [true]: allocated by copyDimension (window.go:219-221), so that nothing but a key of a map leads to it; [false]: everything
    else, which the rest of the program may write to whenever it likes: its own memory, the stack below it, and the points it was
    given. *)
Record mem := mkMem {
  blocks : list (bool * bytes);
  arrays : list (bool * list str);
  cells : list Z;
  maps : list (list (key * nat))
}.

(** Writing to one element of a list; no counterpart in the source.  For the memory of window.go:202-226. *)
Fixpoint setNth {A} (l : list A) (i : nat) (x : A) : list A :=
  match l, i with
  | [], _ => []
  | _ :: l, O => x :: l
  | y :: l, S i => y :: setNth l i x
  end.

(** The bytes of a string (window.go:205) *)
Definition text (h : mem) (s : str) : bytes :=
  match nth_error (blocks h) (sblock s) with
  | Some (_, b) => firstn (slen s) (skipn (soff s) b)
  | None => []
  end.
(** The strings of an array (window.go:157) *)
Definition arrayOf (h : mem) (a : nat) : list str :=
  match nth_error (arrays h) a with Some (_, l) => l | None => [] end.
(** The strings an interface of type [len]string shows (window.go:207-209) *)
Definition kstrs (h : mem) (k : key) : list str :=
  match k with KZero => [] | KArray len a => firstn len (arrayOf h a) end.
(** Their bytes: what == of keys compares (window.go:210) *)
Definition ktexts (h : mem) (k : key) : list bytes := map (text h) (kstrs h k).
(** == of two keys of a map: the same type, and equal strings (state.go:47) *)
Definition same (h : mem) (k k' : key) : bool :=
  match k, k' with
  | KZero, KZero => true
  | KArray n _, KArray n' _ => (n =? n')%nat && key_eqb (ktexts h k) (ktexts h k')
  | _, _ => false
  end.
(** monoid[k] (window.go:146, 210); [None]: nil.  A nil put into the map by hand is left out. *)
Fixpoint lookup (h : mem) (m : list (key * nat)) (k : key) : option nat :=
  match m with
  | [] => None
  | (k', c) :: m => if same h k' k then Some c else lookup h m k
  end.
(** A map, a counter (state.go:30, 47) *)
Definition mapOf (h : mem) (m : nat) : list (key * nat) := nth m (maps h) [].
(** *monoid (state.go:38, 42) *)
Definition cellOf (h : mem) (c : nat) : Z := nth c (cells h) 0.

(** make and append of the Go library (window.go:69, 199, 219, 221), a local array (window.go:160, 172, 184) *)
Definition newBlock (h : mem) (own : bool) (b : bytes) : mem := mkMem (blocks h ++ [(own, b)]) (arrays h) (cells h) (maps h).
(** window.go:69, 160, 172, 184, 199, 219 *)
Definition newArray (h : mem) (own : bool) (l : list str) : mem := mkMem (blocks h) (arrays h ++ [(own, l)]) (cells h) (maps h).
(** state.go:32-35 *)
Definition NewCounterMonoid (h : mem) : mem := mkMem (blocks h) (arrays h) (cells h ++ [0]) (maps h).
(** *monoid = v (state.go:38, 43; counter.go:15) *)
Definition setCell (h : mem) (c : nat) (v : Z) : mem := mkMem (blocks h) (arrays h) (setNth (cells h) c v) (maps h).
(** monoid[k] = elem for a key that is not in the map (window.go:149, 213; state.go:53) *)
Definition insert (h : mem) (m : nat) (k : key) (c : nat) : mem :=
  mkMem (blocks h) (arrays h) (cells h) (setNth (maps h) m (mapOf h m ++ [(k, c)])).

(** The zero string: what make and a local array hold (window.go:69, 160) *)
Definition noStr : str := mkStr 0 0 0.

(** window.go:117-140 and 160, 172, 184, 199: how many strings the array of the dimension has *)
Definition room (n : nat) : nat :=
  if (n <=? 2)%nat then 2%nat else if (n <=? 4)%nat then 4%nat else if (n <=? 8)%nat then 8%nat else n.

(** window.go:204-206: the strings; a property is a string or something else.  [None]: panic. *)
Fixpoint pick (indices : list nat) (properties : list (option str)) : option (list str) :=
  match indices with
  | [] => Some []
  | i :: r =>
    match nth_error properties i with
    | Some (Some s) => let? rest := pick r properties in Some (s :: rest)
    | _ => None
    end
  end.

(** window.go:220-223 *)
Fixpoint copyElems (h : mem) (dimension : list str) : mem * list str :=
  match dimension with
  | [] => (h, [])
  | elem :: rest =>
    let h1 := newBlock h true (text h elem) in
    let copyOfElem := mkStr (List.length (blocks h)) 0 (List.length (text h elem)) in
    let (h2, copied) := copyElems h1 rest in
    (h2, copyOfElem :: copied)
  end.
(** window.go:218-226 *)
Definition copyDimension (h : mem) (dimension : list str) : mem * key :=
  let (h1, copied) := copyElems h dimension in
  (newArray h1 true copied, KArray (List.length dimension) (List.length (arrays h1))).

(** window.go:157-226, 145-152 with the map [m]: the memory and the counter; [None]: panic.  That a stack can be moved while line 209
    has its address in a uintptr is left out. *)
Definition Extract (h : mem) (m : nat) (indices : list nat) (properties : list (option str)) : option (mem * nat) :=
  let n := List.length indices in
  if (n =? 0)%nat then
    match lookup h (mapOf h m) KZero with
    | Some elem => Some (h, elem)
    | None =>
      let h1 := NewCounterMonoid h in
      Some (insert h1 m KZero (List.length (cells h)), List.length (cells h))
    end
  else if (room n <? n)%nat then None
  else
    let? dimension := pick indices properties in
    let h1 := newArray h false (dimension ++ repeat noStr (room n - n)) in
    let dimensionObj := KArray n (List.length (arrays h)) in
    match lookup h1 (mapOf h1 m) dimensionObj with
    | Some elem => Some (h1, elem)
    | None =>
      let h2 := NewCounterMonoid h1 in
      let (h3, k) := copyDimension h2 dimension in
      Some (insert h3 m k (List.length (cells h1)), List.length (cells h1))
    end.

(** counter.go:11-17; the locks are in [event] below. *)
Definition Handle (h : mem) (m : nat) (indices : list nat) (properties : list (option str)) : option mem :=
  let? (h1, counter) := Extract h m indices properties in
  Some (setCell h1 counter (uint64 (cellOf h1 counter + 1))).

(** state.go:37-39 *)
Definition counterAdd (h : mem) (monoid that : nat) : mem :=
  setCell h monoid (uint64 (cellOf h monoid + cellOf h that)).
(** state.go:49-58: the loop, the entries of [that] in the order in which they are visited *)
Fixpoint addLoop (h : mem) (monoid : nat) (that : list (key * nat)) : mem :=
  match that with
  | [] => h
  | (k, v) :: that =>
    match lookup h (mapOf h monoid) k with
    | None => addLoop (insert h monoid k v) monoid that
    | Some existingV => addLoop (counterAdd h existingV v) monoid that
    end
  end.
(** The loop over a map visits its entries in any order: [order] says which of the remaining ones comes next.  For state.go:50. *)
Fixpoint arrange {A} (order : list nat) (l : list A) : option (list A) :=
  match order with
  | [] => match l with [] => Some [] | _ => None end
  | i :: order =>
    match nth_error l i with
    | Some x => let? rest := arrange order (firstn i l ++ skipn (S i) l) in Some (x :: rest)
    | None => None
    end
  end.

(** Writing the strings [l] to an array from [from] on: copy of window.go:78 *)
Fixpoint copyTo (a : list str) (from : nat) (l : list str) : list str :=
  match l with
  | [] => a
  | s :: l => copyTo (setNth a from s) (S from) l
  end.
(** Writing to an array, as window.go:78 does; the rest of the program does so in its own way. *)
Definition setArray (h : mem) (a : nat) (l : list str) : mem :=
  match nth_error (arrays h) a with
  | Some (own, _) => mkMem (blocks h) (setNth (arrays h) a (own, l)) (cells h) (maps h)
  | None => h
  end.

(** state.go:9-14: what the collector is given: Dimension and Value *)
Record gpoint := mkGPoint { gDimension : slice; gValue : Z }.
(** A call of exportShard (window.go:65-86): the map, dimensionElemCount, the array of space and where the rest of space begins, the
    entries still to come, the points given so far *)
Record export := mkExport { xmap : nat; xn : nat; xspace : nat; xfrom : nat; xtodo : list (key * nat); xgiven : list gpoint }.
(** The memory and the calls of exportShard that were begun (window.go:65) *)
Record world := mkWorld { heap : mem; exporting : list export }.

(** window.go:70-84 for the entry (k, c) *)
Definition exportEntry (h : mem) (x : export) (k : key) (c : nat) : mem * gpoint :=
  let dimension := mkSlice (xspace x) (xfrom x) (xn x) (List.length (arrayOf h (xspace x)) - xfrom x) in
  let from := match k with KZero => [] | KArray _ a => firstn (xn x) (arrayOf h a) end in
  let h1 := setArray h (xspace x) (copyTo (arrayOf h (xspace x)) (xfrom x) from) in
  (setCell h1 c 0, mkGPoint dimension (float64 (cellOf h1 c))).

(** What happens.  The rest of the program: makes memory, writes to memory that is not [true].  MNew: a map is made (window.go:33);
    MHandle: an event is counted in map m (counter.go:11-17); MBegin: exportShard of map m begins (window.go:66-69); MNext: call x of
    exportShard goes round once (70-84), with the remaining entry i; MAdd: Add of two maps (state.go:49-58). *)
Inductive mevent :=
| PBlock (b : bytes)
| PArray (l : list str)
| PWrite (block : nat) (b : bytes)
| PSet (array : nat) (i : nat) (s : str)
| MNew
| MHandle (m : nat) (indices : list nat) (properties : list (option str))
| MBegin (m : nat) (dimensionElemCount : nat)
| MNext (x : nat) (i : nat)
| MAdd (monoid that : nat) (order : list nat).

(** Whether a call of exportShard holds the lock of map m (window.go:66-67) *)
Definition busy (w : world) (m : nat) : bool :=
  existsb (fun x => (xmap x =? m)%nat && match xtodo x with [] => false | _ => true end) (exporting w).

(** Every string of Go is empty or in memory that exists; the properties of an event (spi.go) are such strings. *)
Definition valid (h : mem) (s : str) : bool := (slen s =? 0)%nat || (sblock s <? List.length (blocks h))%nat.

(** One step; [None]: not possible, or a panic.  counter.go:11-17, window.go:65-86, state.go:49-58; the loop of window.go:70 is over
    when there is no entry left. *)
Definition mstep (w : world) (e : mevent) : option world :=
  let h := heap w in
  match e with
  | PBlock b => Some (mkWorld (newBlock h false b) (exporting w))
  | PArray l => Some (mkWorld (newArray h false l) (exporting w))
  | PWrite block b =>
    match nth_error (blocks h) block with
    | Some (false, _) => Some (mkWorld (mkMem (setNth (blocks h) block (false, b)) (arrays h) (cells h) (maps h)) (exporting w))
    | _ => None
    end
  | PSet a i s =>
    match nth_error (arrays h) a with
    | Some (false, l) => Some (mkWorld (setArray h a (setNth l i s)) (exporting w))
    | _ => None
    end
  | MNew => Some (mkWorld (mkMem (blocks h) (arrays h) (cells h) (maps h ++ [[]])) (exporting w))
  | MHandle m indices properties =>
    if busy w m || negb (m <? List.length (maps h))%nat || negb (forallb (fun p => match p with Some s => valid h s | None => true end) properties) then None
    else let? h' := Handle h m indices properties in Some (mkWorld h' (exporting w))
  | MBegin m n =>
    if busy w m || negb (m <? List.length (maps h))%nat then None
    else Some (mkWorld (newArray h false (repeat noStr (List.length (mapOf h m) * n)))
           (exporting w ++ [mkExport m n (List.length (arrays h)) 0 (mapOf h m) []]))
  | MNext x i =>
    let? x' := nth_error (exporting w) x in
    let? (k, c) := nth_error (xtodo x') i in
    let (h', p) := exportEntry h x' k c in
    Some (mkWorld h' (setNth (exporting w) x
      (mkExport (xmap x') (xn x') (xspace x') (xfrom x' + xn x') (firstn i (xtodo x') ++ skipn (S i) (xtodo x')) (xgiven x' ++ [p]))))
  | MAdd monoid that order =>
    if busy w monoid || busy w that || negb (monoid <? List.length (maps h))%nat || negb (that <? List.length (maps h))%nat then None
    else let? entries := arrange order (mapOf h that) in Some (mkWorld (addLoop h monoid entries) (exporting w))
  end.
(** Many steps of counter.go:11-17, window.go:65-86, state.go:49-58 *)
Fixpoint mruns (w : world) (evs : list mevent) : option world :=
  match evs with
  | [] => Some w
  | e :: evs => let? w' := mstep w e in mruns w' evs
  end.
(** Before everything: no window was made (window.go:26) *)
Definition start : world := mkWorld (mkMem [] [] [] []) [].

(** append(s, e) of the Go library, as a collector may use it on state.go:12: within the capacity the string is written behind the
    slice, else everything is copied to a new array (of some greater capacity). *)
Definition goAppend (h : mem) (s : slice) (e : str) : mem * slice :=
  if (slength s <? scap s)%nat then
    (setArray h (sarray s) (setNth (arrayOf h (sarray s)) (sfrom s + slength s) e), mkSlice (sarray s) (sfrom s) (S (slength s)) (scap s))
  else
    let l := firstn (slength s) (skipn (sfrom s) (arrayOf h (sarray s))) ++ [e] in
    (newArray h false l, mkSlice (List.length (arrays h)) 0 (List.length l) (List.length l)).
(** The texts of a slice (state.go:12) *)
Definition stexts (h : mem) (s : slice) : list bytes :=
  map (text h) (firstn (slength s) (skipn (sfrom s) (arrayOf h (sarray s)))).
