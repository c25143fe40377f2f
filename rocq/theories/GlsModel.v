(** Model of gls/gls.go: goroutine local storage.  GoID() is the number of the goroutine taking the step (above 0, as the runtime's
    are).  Keys are hashable and equal to themselves, Copy() of a value returns and always gives the same.  ResetGls and DeleteGls are called by the functions
    of this package only, for the calling goroutine. *)
From Verif Require Import Base.

(** Keys and values are interface values, numbered; 0 is nil. *)
Definition nil_value : Z := 0.
(** gls.go:5: a map of one goroutine *)
Definition table := Z -> option Z.
(** Assignment to an entry of a map, gls.go:29, 62, 64, 98 *)
Definition upd {A} (f : Z -> A) (x : Z) (v : A) : Z -> A := fun y => if y =? x then v else f y.

(** globalMaps: per shard a Go map from goroutine ids to maps; [Some None] is an entry holding a nil map.  Maps are
    references into a heap.  closures: the functions returned by WithGls (with their childGls) and WithEmptyGls.
    pc: where a goroutine is between the lock section of an operation and its use of the map. gls.go:5, 10, 54-99. *)
Inductive pc :=
| Idle
| InGet (m : option nat) (k : Z)
| InSet (m : option nat) (k v : Z)
| InWith (m : option nat).
(** gls.go:10, and the variables of 54-99 *)
Record state := mkState {
  heap : list table;
  globalMaps : Z -> Z -> option (option nat);
  closures : list (option nat);
  pcs : Z -> pc
}.

(** gls.go:7 *)
Definition shardsCount : Z := 16.

(** gls.go:16-23 *)
Definition init : state := mkState [] (fun _ _ => None) [] (fun _ => Idle).

(** gls.go:25-31, one critical section *)
Definition ResetGls (goid : Z) (initialValue : option nat) (gm : Z -> Z -> option (option nat)) : Z -> Z -> option (option nat) :=
  let shardIndex := goid mod shardsCount in
  upd gm shardIndex (upd (gm shardIndex) goid (Some initialValue)).

(** gls.go:33-39, one critical section *)
Definition DeleteGls (goid : Z) (gm : Z -> Z -> option (option nat)) : Z -> Z -> option (option nat) :=
  let shardIndex := goid mod shardsCount in
  upd gm shardIndex (upd (gm shardIndex) goid None).

(** gls.go:41-52; the read section *)
Definition GetGls (goid : Z) (gm : Z -> Z -> option (option nat)) : option nat :=
  let shardIndex := goid mod shardsCount in
  match gm shardIndex goid with
  | Some gls => gls
  | None => None
  end.

(** gls.go:101-103 *)
Definition IsGlsEnabled (goid : Z) (gm : Z -> Z -> option (option nat)) : bool :=
  match GetGls goid gm with Some _ => true | None => false end.

Section Gls.
  (** v.(copiable): what Copy() of a copiable value returns; None: not copiable. *)
  Variable Copy : Z -> option Z.

  (** gls.go:60-65; a nil interface is not copiable. *)
  Definition copyOf (v : Z) : Z := if v =? nil_value then v else match Copy v with Some w => w | None => v end.

  (** gls.go:58-66; ranging over a nil map does nothing. *)
  Definition copyTable (h : list table) (parent : option nat) : table :=
    match parent with
    | None => fun _ => None
    | Some a => fun k => match nth a h (fun _ => None) k with Some v => Some (copyOf v) | None => None end
    end.

  (** The atomic steps of goroutine g.  WithStart/WithEnd: WithGls, gls.go:54-73, the lock section and the copying;
      WithEmpty: gls.go:75-83; Enter/Exit: lines 68-69 (78-79) and the deferred line 70 (80) of the returned function
      number c, after f returned or panicked; Get: lines 85-91; Set: lines 93-99. *)
  Inductive event :=
  | WithStart (g : Z)
  | WithEnd (g : Z) (c : nat)
  | WithEmpty (g : Z) (c : nat)
  | Enter (g : Z) (c : nat)
  | Exit (g : Z)
  | GetStart (g k : Z)
  | GetEnd (g k : Z)
  | SetStart (g k v : Z)
  | SetEnd (g k v : Z).

  (** What the goroutine sees of a step: nothing, the value returned by Get, a panic. gls.go:90, 96. *)
  Inductive obs := Silent | Value (v : Z) | Panic.

  (** No counterpart in the source: a goroutine goes on within gls.go:54-99 *)
  Definition set_pc (s : state) (g : Z) (p : pc) : state := mkState (heap s) (globalMaps s) (closures s) (upd (pcs s) g p).

  (** Writing a map in place; gls.go:98 *)
  Fixpoint write (h : list table) (a : nat) (k v : Z) : list table :=
    match h, a with
    | [], _ => []
    | t :: h, O => upd t k (Some v) :: h
    | t :: h, S a => t :: write h a k v
    end.

  (** One step; [None]: not possible in this state. gls.go:25-99. *)
  Definition step (s : state) (e : event) : option (state * obs) :=
    match e with
    | WithStart g =>
      match pcs s g with
      | Idle => Some (set_pc s g (InWith (GetGls g (globalMaps s))), Silent)
      | _ => None
      end
    | WithEnd g c =>
      match pcs s g with
      | InWith parentGls =>
        if (c =? List.length (closures s))%nat then
          Some (mkState (heap s ++ [copyTable (heap s) parentGls]) (globalMaps s) (closures s ++ [Some (List.length (heap s))]) (upd (pcs s) g Idle), Silent)
        else None
      | _ => None
      end
    | WithEmpty g c =>
      match pcs s g with
      | Idle =>
        if (c =? List.length (closures s))%nat then
          Some (mkState (heap s) (globalMaps s) (closures s ++ [None]) (pcs s), Silent)
        else None
      | _ => None
      end
    | Enter g c =>
      match pcs s g, nth_error (closures s) c with
      | Idle, Some (Some childGls) =>
        Some (mkState (heap s) (ResetGls g (Some childGls) (globalMaps s)) (closures s) (pcs s), Silent)
      | Idle, Some None =>
        Some (mkState (heap s ++ [fun _ => None]) (ResetGls g (Some (List.length (heap s))) (globalMaps s)) (closures s) (pcs s), Silent)
      | _, _ => None
      end
    | Exit g =>
      match pcs s g with
      | Idle => Some (mkState (heap s) (DeleteGls g (globalMaps s)) (closures s) (pcs s), Silent)
      | _ => None
      end
    | GetStart g k =>
      match pcs s g with
      | Idle => Some (set_pc s g (InGet (GetGls g (globalMaps s)) k), Silent)
      | _ => None
      end
    | GetEnd g k =>
      match pcs s g with
      | InGet glsMap k' =>
        if k' =? k then
          Some (set_pc s g Idle,
            Value match glsMap with
                  | None => nil_value
                  | Some a => match nth a (heap s) (fun _ => None) k with Some v => v | None => nil_value end
                  end)
        else None
      | _ => None
      end
    | SetStart g k v =>
      match pcs s g with
      | Idle => Some (set_pc s g (InSet (GetGls g (globalMaps s)) k v), Silent)
      | _ => None
      end
    | SetEnd g k v =>
      match pcs s g with
      | InSet glsMap k' v' =>
        if (k' =? k) && (v' =? v) then
          match glsMap with
          | None => Some (set_pc s g Idle, Panic)
          | Some a => Some (mkState (write (heap s) a k v) (globalMaps s) (closures s) (upd (pcs s) g Idle), Silent)
          end
        else None
      | _ => None
      end
    end.

  (** A schedule: any sequence of possible steps of any goroutines. gls.go:54-99. *)
  Fixpoint run (s : state) (evs : list event) : option (state * list obs) :=
    match evs with
    | [] => Some (s, [])
    | e :: evs =>
      match step s e with
      | None => None
      | Some (s', o) => match run s' evs with None => None | Some (s'', os) => Some (s'', o :: os) end
      end
    end.
End Gls.
