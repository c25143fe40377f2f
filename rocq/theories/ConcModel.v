(** Model of the concurrent package: UnboundedExecutor and the lock based Map. *)
From Verif Require Import Base.

(** * unbounded_executor.go *)

(** unbounded_executor.go:50-61, how a handler ends: it returns, panics with StopSignal, or with another value. *)
Inductive ending := Returned | PanicStop | PanicOther (v : Z).
(** unbounded_executor.go:50-61, a goroutine started by Go: running the handler, the handler is over and the deferred function runs, finished. *)
Inductive phase := Running | Leaving | Done.
(** unbounded_executor.go:72-85, a call of StopAndWait: in the select, about to call checkGoroutines, returned because nothing is left, returned
    because its context is done. *)
Inductive waiter := NotCalled | Waiting | Checking | AllDone | GaveUp.

(** unbounded_executor.go:22-28, the goroutines and waiters besides; LogPanic (line 54) records its argument and is assumed to return. *)
Record executor := mkExecutor {
  cancelled : bool;
  activeGoroutines : list (Z * Z);
  goroutines : list (Z * phase);
  waiters : Z -> waiter;
  panicsLogged : list Z
}.

(** unbounded_executor.go:34-42, the type lines 22-28 *)
Definition NewUnboundedExecutor : executor := mkExecutor false [] [] (fun _ => NotCalled) [].

(** unbounded_executor.go:49, 58: m[k] += d on a Go map, adding the key if it is missing *)
Fixpoint addTo (m : list (Z * Z)) (k d : Z) : list (Z * Z) :=
  match m with
  | [] => [(k, d)]
  | (k', n) :: m => if k' =? k then (k', n + d) :: m else (k', n) :: addTo m k d
  end.

(** unbounded_executor.go:87-99.  LogInfo is assumed to return. *)
Definition checkGoroutines (m : list (Z * Z)) : bool := forallb (fun x => negb (0 <? snd x)) m.

(** unbounded_executor.go:44-99, the atomic steps; goroutine i is the i-th one started, [loc] the file:line text it was started from, w a call of
    StopAndWait.
    EGo: the critical section of Go, lines 46-61; EEnd: the handler ends and lines 52-55; ELeave: lines 56-58;
    EStop: Stop, lines 64-66; EStopAndWait: line 73; ETimer: line 77; EDone: lines 78-79; ECheck: lines 81-83. *)
Inductive eevent :=
| EGo (loc : Z)
| EEnd (i : nat) (how : ending)
| ELeave (i : nat)
| EStop
| EStopAndWait (w : Z)
| ETimer (w : Z)
| EDone (w : Z)
| ECheck (w : Z).

(** Update of a list; no counterpart in the source. For unbounded_executor.go:50-61. *)
Fixpoint set_nth {A} (l : list A) (i : nat) (x : A) : list A :=
  match l, i with
  | [], _ => []
  | _ :: l, O => x :: l
  | y :: l, S i => y :: set_nth l i x
  end.
(** Update of a function; no counterpart in the source. For unbounded_executor.go:72-85. *)
Definition set_waiter (f : Z -> waiter) (w : Z) (x : waiter) : Z -> waiter := fun v => if v =? w then x else f v.

(** unbounded_executor.go:44-85, one step.  [None]: the step is not possible. *)
Definition estep (s : executor) (e : eevent) : option executor :=
  match e with
  | EGo loc =>
    Some (mkExecutor (cancelled s) (addTo (activeGoroutines s) loc 1) (goroutines s ++ [(loc, Running)]) (waiters s) (panicsLogged s))
  | EEnd i how =>
    match nth_error (goroutines s) i with
    | Some (loc, Running) =>
      Some (mkExecutor (cancelled s) (activeGoroutines s) (set_nth (goroutines s) i (loc, Leaving)) (waiters s)
        (match how with PanicOther v => panicsLogged s ++ [v] | _ => panicsLogged s end))
    | _ => None
    end
  | ELeave i =>
    match nth_error (goroutines s) i with
    | Some (loc, Leaving) =>
      Some (mkExecutor (cancelled s) (addTo (activeGoroutines s) loc (-1)) (set_nth (goroutines s) i (loc, Done)) (waiters s) (panicsLogged s))
    | _ => None
    end
  | EStop => Some (mkExecutor true (activeGoroutines s) (goroutines s) (waiters s) (panicsLogged s))
  | EStopAndWait w =>
    match waiters s w with
    | NotCalled => Some (mkExecutor true (activeGoroutines s) (goroutines s) (set_waiter (waiters s) w Waiting) (panicsLogged s))
    | _ => None
    end
  | ETimer w =>
    match waiters s w with
    | Waiting => Some (mkExecutor (cancelled s) (activeGoroutines s) (goroutines s) (set_waiter (waiters s) w Checking) (panicsLogged s))
    | _ => None
    end
  | EDone w =>
    match waiters s w with
    | Waiting => Some (mkExecutor (cancelled s) (activeGoroutines s) (goroutines s) (set_waiter (waiters s) w GaveUp) (panicsLogged s))
    | _ => None
    end
  | ECheck w =>
    match waiters s w with
    | Checking => Some (mkExecutor (cancelled s) (activeGoroutines s) (goroutines s)
        (set_waiter (waiters s) w (if checkGoroutines (activeGoroutines s) then AllDone else Waiting)) (panicsLogged s))
    | _ => None
    end
  end.

(** unbounded_executor.go:44-85, many steps *)
Fixpoint eruns (s : executor) (evs : list eevent) : option executor :=
  match evs with
  | [] => Some s
  | e :: evs => match estep s e with Some s' => eruns s' evs | None => None end
  end.

(** * go_below_19.go
    Keys are hashable (an unhashable key panics with the lock held, which is not modelled) and compared by value. *)

(** go_below_19.go:18, 25: an operation and what it returns: Load gives (elem, found), Store nothing. *)
Inductive op := Load (k : Z) | Store (k v : Z).
(** go_below_19.go:18, 25: what they return *)
Inductive ret := Loaded (r : option Z) | Stored.

(** go_below_19.go:18-29, where operation number id is: called, holding the lock, using the Go map, done with it, lock released. *)
Inductive mpc := Fresh | Called (o : op) | Locked (o : op) | Using (o : op) | Used (o : op) (r : ret) | Unlocked (o : op) (r : ret) | Over.

(** go_below_19.go:7-10: the lock (who holds it for reading and for writing), the Go map, and whether the Go runtime has detected a
    concurrent use of the map (it stops the program then). *)
Record cmap := mkMap {
  rlocks : list nat;
  wlock : option nat;
  data : Z -> option Z;
  crashed : bool;
  mpcs : nat -> mpc;
  inuse : list nat
}.

(** go_below_19.go:12-16 *)
Definition NewMap : cmap := mkMap [] None (fun _ => None) false (fun _ => Fresh) [].

(** go_below_19.go:18-29, the steps of operation id: call, RLock/Lock (lines 19, 26), beginning and end of the use of the Go map (lines 20,
    27), RUnlock/Unlock (lines 21, 28), return. *)
Inductive mevent :=
| MInvoke (id : nat) (o : op)
| MLock (id : nat)
| MBegin (id : nat)
| MEnd (id : nat)
| MUnlock (id : nat)
| MRespond (id : nat) (r : ret).

(** Updates; no counterpart in the source. For go_below_19.go:18-29. *)
Definition set_mpc (f : nat -> mpc) (id : nat) (x : mpc) : nat -> mpc := fun i => if (i =? id)%nat then x else f i.
Definition remove_id (id : nat) (l : list nat) : list nat := filter (fun i => negb (i =? id)%nat) l.
(** go_below_19.go:27, whether an operation is writing the map *)
Definition is_store (p : mpc) : bool := match p with Using (Store _ _) => true | _ => false end.

(** go_below_19.go:20, 27, the read or write of the Go map itself *)
Definition access (m : Z -> option Z) (o : op) : (Z -> option Z) * ret :=
  match o with
  | Load k => (m, Loaded (m k))
  | Store k v => (fun k' => if k' =? k then Some v else m k', Stored)
  end.

(** go_below_19.go:18-29, one step; the second component tells the access made to the Go map, if any.  [None]: not possible. *)
Definition mstep (s : cmap) (e : mevent) : option (cmap * list (nat * op * ret)) :=
  match e with
  | MInvoke id o =>
    match mpcs s id with
    | Fresh => Some (mkMap (rlocks s) (wlock s) (data s) (crashed s) (set_mpc (mpcs s) id (Called o)) (inuse s), [])
    | _ => None
    end
  | MLock id =>
    match mpcs s id, wlock s with
    | Called (Load k), None =>
      Some (mkMap (id :: rlocks s) None (data s) (crashed s) (set_mpc (mpcs s) id (Locked (Load k))) (inuse s), [])
    | Called (Store k v), None =>
      match rlocks s with
      | [] => Some (mkMap [] (Some id) (data s) (crashed s) (set_mpc (mpcs s) id (Locked (Store k v))) (inuse s), [])
      | _ => None
      end
    | _, _ => None
    end
  | MBegin id =>
    match mpcs s id with
    | Locked o =>
      let conflict := match o with
        | Load _ => existsb (fun i => is_store (mpcs s i)) (inuse s)
        | Store _ _ => match inuse s with [] => false | _ => true end
        end in
      Some (mkMap (rlocks s) (wlock s) (data s) (crashed s || conflict) (set_mpc (mpcs s) id (Using o)) (id :: inuse s), [])
    | _ => None
    end
  | MEnd id =>
    match mpcs s id with
    | Using o =>
      let '(d, r) := access (data s) o in
      Some (mkMap (rlocks s) (wlock s) d (crashed s) (set_mpc (mpcs s) id (Used o r)) (remove_id id (inuse s)), [(id, o, r)])
    | _ => None
    end
  | MUnlock id =>
    match mpcs s id with
    | Used (Load k) r =>
      Some (mkMap (remove_id id (rlocks s)) (wlock s) (data s) (crashed s) (set_mpc (mpcs s) id (Unlocked (Load k) r)) (inuse s), [])
    | Used (Store k v) r =>
      Some (mkMap (rlocks s) None (data s) (crashed s) (set_mpc (mpcs s) id (Unlocked (Store k v) r)) (inuse s), [])
    | _ => None
    end
  | MRespond id r =>
    match mpcs s id with
    | Unlocked o r' =>
      match r, r' with
      | Stored, Stored => Some (mkMap (rlocks s) (wlock s) (data s) (crashed s) (set_mpc (mpcs s) id Over) (inuse s), [])
      | Loaded a, Loaded b =>
        if (match a, b with Some x, Some y => x =? y | None, None => true | _, _ => false end)
        then Some (mkMap (rlocks s) (wlock s) (data s) (crashed s) (set_mpc (mpcs s) id Over) (inuse s), [])
        else None
      | _, _ => None
      end
    | _ => None
    end
  end.

(** go_below_19.go:18-29, many steps *)
Fixpoint mruns (s : cmap) (evs : list mevent) : option (cmap * list (nat * op * ret)) :=
  match evs with
  | [] => Some (s, [])
  | e :: evs =>
    match mstep s e with
    | Some (s', l) => match mruns s' evs with Some (s'', l') => Some (s'', l ++ l') | None => None end
    | None => None
    end
  end.
