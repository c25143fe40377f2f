(** Model of UnboundedExecutor (concurrent/unbounded_executor.go) with its mutex and with LogInfo and LogPanic that do what they like: return, panic, or call the executor again.
    ConcModel, where they return, has what StopAndWait does with its context.  Here a call of StopAndWait is one call of checkGoroutines after another. *)
From Verif Require Import Base.
Open Scope list_scope.

(** What a goroutine is in; the numbers are the texts file:line (unbounded_executor.go:48).  [FRun]: the handler (60), [FPanic]: LogPanic (54), [FEnd]: before Lock (56), [FEndIn]: after it;
    [FGo], [FGoIn]: Go before and after Lock (46); [FCheck], [FCheckIn]: checkGoroutines before and after Lock (88); [FInfo]: LogInfo (92) *)
Inductive frame := FRun (loc : nat) | FPanic (loc : nat) | FEnd (loc : nat) | FEndIn (loc : nat) | FGo (loc : nat) | FGoIn (loc : nat) | FCheck | FCheckIn | FInfo.
(** A goroutine of the user's own, or the n-th one started by Go (50) *)
Inductive tid := U (n : nat) | G (n : nat).
(** unbounded_executor.go:22-27: who holds the mutex, activeGoroutines, what each goroutine is in (innermost first), what checkGoroutines has returned to whom, and whether a panic ended the program *)
Record state := mkState { lock : option tid; counts : list (nat * Z); gor : list (list frame); usr : nat -> list frame; results : list (tid * bool); crashed : bool }.
(** unbounded_executor.go:34-42 *)
Definition init : state := mkState None [] [] (fun _ => []) [] false.
(** unbounded_executor.go:49, 58: += on a map *)
Fixpoint bump (m : list (nat * Z)) (k : nat) (d : Z) : list (nat * Z) :=
  match m with
  | [] => [(k, d)]
  | (k', v) :: m => if (k' =? k)%nat then (k', v + d) :: m else (k', v) :: bump m k d
  end.
(** unbounded_executor.go:50-61, a list with one place changed *)
Fixpoint put_nth (l : list (list frame)) (n : nat) (st : list frame) : list (list frame) :=
  match l, n with
  | [], _ => []
  | _ :: l, O => st :: l
  | x :: l, S n => x :: put_nth l n st
  end.
(** What a goroutine is in; unbounded_executor.go:44-99 *)
Definition stack (s : state) (t : tid) : list frame := match t with U n => usr s n | G n => nth n (gor s) [] end.
(** unbounded_executor.go:44-99, after a step of a goroutine *)
Definition put (s : state) (t : tid) (st : list frame) : state :=
  match t with
  | U n => mkState (lock s) (counts s) (gor s) (fun v => if (v =? n)%nat then st else usr s v) (results s) (crashed s)
  | G n => mkState (lock s) (counts s) (put_nth (gor s) n st) (usr s) (results s) (crashed s)
  end.
(** Lock and Unlock; unbounded_executor.go:46, 47, 56, 57, 88, 89 *)
Definition setLock (s : state) (l : option tid) : state := mkState l (counts s) (gor s) (usr s) (results s) (crashed s).
(** unbounded_executor.go:49, 58 *)
Definition setCounts (s : state) (m : list (nat * Z)) : state := mkState (lock s) m (gor s) (usr s) (results s) (crashed s).
(** go, unbounded_executor.go:50 *)
Definition spawn (s : state) (loc : nat) : state := mkState (lock s) (counts s) (gor s ++ [[FRun loc]]) (usr s) (results s) (crashed s).
(** unbounded_executor.go:95, 98 *)
Definition answer (s : state) (t : tid) (b : bool) : state := mkState (lock s) (counts s) (gor s) (usr s) ((t, b) :: results s) (crashed s).
(** A panic that nobody recovers; unbounded_executor.go:51-59 *)
Definition crash (s : state) : state := mkState (lock s) (counts s) (gor s) (usr s) (results s) true.

(** A call of Go or of checkGoroutines (from StopAndWait) *)
Inductive call := KGo (loc : nat) | KCheck.
(** A call begins: by the user, in a handler, or in LogInfo or LogPanic; a goroutine goes on until it takes or releases the mutex or calls one of those; a handler ends, by a panic or not
    (with StopSignal it is as if it returned, 53); LogInfo or LogPanic returns or panics.  unbounded_executor.go:44-99 *)
Inductive event := Call (t : tid) (c : call) | Step (t : tid) | End (t : tid) (panics : bool) | HookRet (t : tid) | HookPanic (t : tid).
(** unbounded_executor.go:44-99, one step; [None]: not possible.  A panic of LogInfo goes through the deferred Unlock (89) to the caller: a handler (60), or LogPanic, where it ends the program;
    a user's own goroutine is taken to recover it. *)
Definition step (s : state) (e : event) : option state :=
  if crashed s then None else
  match e with
  | Call t c =>
    let f := match c with KGo loc => FGo loc | KCheck => FCheck end in
    match stack s t with
    | [] => match t with U _ => Some (put s t [f]) | G _ => None end
    | FRun l :: r => Some (put s t (f :: FRun l :: r))
    | FInfo :: r => Some (put s t (f :: FInfo :: r))
    | FPanic l :: r => Some (put s t (f :: FPanic l :: r))
    | _ => None
    end
  | Step t =>
    match stack s t with
    | FGo loc :: r => match lock s with None => Some (setLock (put s t (FGoIn loc :: r)) (Some t)) | Some _ => None end
    | FGoIn loc :: r => Some (setLock (spawn (setCounts (put s t r) (bump (counts s) loc 1)) loc) None)
    | FCheck :: r => match lock s with None => Some (setLock (put s t (FCheckIn :: r)) (Some t)) | Some _ => None end
    | FCheckIn :: r =>
      if existsb (fun x => 0 <? snd x) (counts s) then Some (put s t (FInfo :: r))
      else Some (setLock (answer (put s t r) t true) None)
    | FEnd loc :: r => match lock s with None => Some (setLock (put s t (FEndIn loc :: r)) (Some t)) | Some _ => None end
    | FEndIn loc :: r => Some (setLock (setCounts (put s t r) (bump (counts s) loc (-1))) None)
    | _ => None
    end
  | End t panics => match stack s t with FRun loc :: r => Some (put s t ((if panics then FPanic loc else FEnd loc) :: r)) | _ => None end
  | HookRet t =>
    match stack s t with
    | FInfo :: r => Some (setLock (answer (put s t r) t false) None)
    | FPanic loc :: r => Some (put s t (FEnd loc :: r))
    | _ => None
    end
  | HookPanic t =>
    match stack s t with
    | FInfo :: FRun loc :: r => Some (setLock (put s t (FPanic loc :: r)) None)
    | FInfo :: [] => Some (setLock (put s t []) None)
    | FInfo :: _ | FPanic _ :: _ => Some (crash s)
    | _ => None
    end
  end.
(** unbounded_executor.go:44-99, many steps *)
Fixpoint run (s : state) (evs : list event) : option state :=
  match evs with
  | [] => Some s
  | e :: evs => match step s e with Some s' => run s' evs | None => None end
  end.
