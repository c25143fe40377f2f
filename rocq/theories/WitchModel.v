(** Model of the event queue of witch and of its HTTP handler for /witch/more-events (witch/logger.go).
    Simplifications: the bytes of a record are those it had when it was written (what becomes of buffers that are used again is the subject of
    PoolModel.v); what Write prints is kept as the number it tells; the header of the response, the error of a broken connection and LogPanic are
    left out; jsoniter's stream writes the bytes it is given, one after another.
    (witch/witch.go:115 names a type json.Format that the json package does not have; logger.go does not depend on it.) *)
From Verif Require Import Base.

(** Where a request is: not begun, in the select of witch/logger.go:43-48, in the loop of lines 50-60 with the events it has, over. *)
Inductive rpc := RFresh | RWaits | RHas (events : list bytes) | ROver.

(** witch/logger.go:15-18: what is in the channel, and the counter; the requests *)
Record queue := mkQueue { msgChan : list bytes; droppedEventsCount : Z; reqs : nat -> rpc }.

(** witch/logger.go:22 *)
Definition capacity : nat := Z.to_nat 10240.
(** witch/logger.go:54 *)
Definition limit : nat := Z.to_nat 1000.

(** witch/logger.go:20-24 *)
Definition newEventQueue : queue := mkQueue [] 0 (fun _ => RFresh).

(** What happens: a call of Write; a request begins (witch/logger.go:63-73), gets its first event (line 44) or none in ten seconds (line 46),
    goes through the loop (lines 50-60) once *)
Inductive event := EWrite (buf : bytes) | ERequest (r : nat) | EFirst (r : nat) | ETimeout (r : nat) | ENext (r : nat).
(** What is seen of it: Write returns (witch/logger.go:37) and has accepted the record or not (lines 28-29); its message (lines 32-34);
    request r takes a record (lines 44, 52); the response is complete (lines 70-82) *)
Inductive output := OReturn (n : nat) (accepted : option bytes) | OMessage (dropped : Z) | OTake (r : nat) (buf : bytes) | OResponse (r : nat) (body : bytes).

(** witch/logger.go:26-38.  The channel operation is one step with the atomic addition: nobody else changes the counter in between
    unless they drop a record, too, and additions commute. *)
Definition Write (q : queue) (buf : bytes) : queue * list output :=
  if Nat.ltb (List.length (msgChan q)) capacity
  then (mkQueue (msgChan q ++ [buf]) (droppedEventsCount q) (reqs q), [OReturn (List.length buf) (Some buf)])
  else
    let dropped := (droppedEventsCount q + 1) mod 2 ^ 64 in
    (mkQueue (msgChan q) dropped (reqs q),
     (if dropped mod 10000 =? 1 then [OMessage dropped] else []) ++ [OReturn (List.length buf) None]).

(** witch/logger.go:75-80, with WriteMore: a comma *)
Fixpoint writeEvents (i : nat) (events : list bytes) : bytes :=
  match events with
  | [] => []
  | event :: events => (match i with O => [] | S _ => bs "," end) ++ event ++ writeEvents (S i) events
  end.
(** witch/logger.go:70, 74-82 *)
Definition body (events : list bytes) : bytes := bs "[" ++ bs "[" ++ writeEvents 0 events ++ bs "]".

(** witch/logger.go:40-83: where a request is *)
Definition set (q : queue) (c : list bytes) (r : nat) (p : rpc) : queue :=
  mkQueue c (droppedEventsCount q) (fun s => if Nat.eqb s r then p else reqs q s).

(** witch/logger.go:26-83, one step; [None]: not possible *)
Definition step (q : queue) (e : event) : option (queue * list output) :=
  match e with
  | EWrite buf => Some (Write q buf)
  | ERequest r => match reqs q r with RFresh => Some (set q (msgChan q) r RWaits, []) | _ => None end
  | EFirst r =>
    match reqs q r, msgChan q with
    | RWaits, buf :: c => Some (set q c r (RHas [buf]), [OTake r buf])
    | _, _ => None
    end
  | ETimeout r => match reqs q r with RWaits => Some (set q (msgChan q) r (RHas []), []) | _ => None end
  | ENext r =>
    match reqs q r with
    | RHas events =>
      match msgChan q with
      | buf :: c =>
        let events := events ++ [buf] in
        if Nat.ltb limit (List.length events) then Some (set q c r ROver, [OTake r buf; OResponse r (body events)])
        else Some (set q c r (RHas events), [OTake r buf])
      | [] => Some (set q [] r ROver, [OResponse r (body events)])
      end
    | _ => None
    end
  end.
(** witch/logger.go:26-83: any sequence of steps *)
Fixpoint run (q : queue) (l : list event) : option (queue * list output) :=
  match l with
  | [] => Some (q, [])
  | e :: l =>
    let? p := step q e in
    let? r := run (fst p) l in
    Some (fst r, snd p ++ snd r)
  end.
