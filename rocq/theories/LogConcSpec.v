(** What log calls in several goroutines do, seen from outside. *)
From Verif Require Import Base MsgfmtModel CountlogModel LogConcModel.

(** Is it seen of call [g]? *)
Definition of_call (g : nat) (o : ob) : bool :=
  match o with
  | OMin _ => false
  | OBegin v _ | OMade v _ _ | OOut v _ _ | OCount v _ _ | OTold v | ORet v | OCrash v => (v =? g)%nat
  end.
(** What is seen of call [g] *)
Definition mine (g : nat) (l : list ob) : list ob := filter (of_call g) l.

(** Someone made these handlers for this site *)
Definition known (all : list ob) (r : root nat) : Prop := exists g, In (OMade g (r_site r) (Some (r_stats r, r_out r))) all.
(** The level of the call was below the one for the output, at some time *)
Definition low (all : list ob) (c : call) : Prop := clevel c < 15 \/ exists l, In (OMin l) all /\ clevel c < l + 5.
(** Some handler of [r] panicked *)
Definition panicked (all : list ob) (r : root nat) : Prop :=
  exists g, In (OOut g (r_out r) false) all \/ exists h, r_stats r = Some h /\ In (OCount g h false) all.

(** One round over the handlers of [r]: the output, then the statistics if there are some; the output is left out for statistics below the level.  The last argument: did all
    return? *)
Inductive round (all : list ob) (g : nat) (c : call) (r : root nat) : list ob -> bool -> Prop :=
| R_one : forall b, r_stats r = None -> round all g c r [OOut g (r_out r) b] b
| R_out : forall h, r_stats r = Some h -> round all g c r [OOut g (r_out r) false] false
| R_both : forall h b, r_stats r = Some h -> round all g c r [OOut g (r_out r) true; OCount g h b] b
| R_stats : forall h b, r_stats r = Some h -> low all c -> round all g c r [OCount g h b] b.

(** Made by this call for this site *)
Definition own (g : nat) (r : root nat) : ob := OMade g (r_site r) (Some (r_stats r, r_out r)).
(** The site is the call's: its context, function, place, event, agg and properties *)
Definition at_call (c : call) (st : site) : Prop :=
  Context st = cctx c /\ Func st = cfunc c /\ File st = cfile c /\ Line st = cline c /\ SiteEvent st = cname c /\ Agg st = cagg c /\ Sample st = cprops c.
(** The site is [st0] at another place, with the properties of the call *)
Definition moved (st0 : site) (file : bytes) (line : Z) (c : call) (st : site) : Prop :=
  Context st = Context st0 /\ Func st = Func st0 /\ File st = file /\ Line st = line /\ SiteEvent st = SiteEvent st0 /\ Agg st = Agg st0 /\ Sample st = cprops c.
(** How a call comes to handlers: those that were made for a call with the same event name; its own; after a panic those that were made for its place, or its own; and after
    a panic in its first round those that it makes for the place unknown. *)
Inductive reaches (all : list ob) (g : nat) (c : call) : root nat -> list ob -> Prop :=
| H_cached : forall r, r_mode r = NormalMode -> SiteEvent (r_site r) = cname c -> known all r -> reaches all g c r []
| H_new : forall r, r_mode r = NormalMode -> at_call c (r_site r) -> reaches all g c r [own g r]
| H_place : forall r, r_mode r = FallbackMode -> File (r_site r) = cfile c -> Line (r_site r) = cline c -> known all r -> reaches all g c r []
| H_place_new : forall r r0, r_mode r = FallbackMode -> moved (r_site r0) (cfile c) (cline c) c (r_site r) -> SiteEvent (r_site r0) = cname c -> known all r0 -> panicked all r0 -> reaches all g c r [own g r]
| H_unknown : forall r r0 l t, reaches all g c r0 l -> r_mode r0 = NormalMode -> round all g c r0 t false -> r_mode r = FallbackMode -> moved (r_site r0) (bs "unknown") 0 c (r_site r) ->
    reaches all g c r (l ++ t ++ [own g r]).
(** What is seen of a call between its beginning and its end: a round in which all handlers return, or, of those made after a panic, one with a panic that is told *)
Inductive served (all : list ob) (g : nat) (c : call) : list ob -> Prop :=
| S_returned : forall r l t, reaches all g c r l -> round all g c r t true -> served all g c (l ++ t)
| S_told : forall r l t, reaches all g c r l -> r_mode r = FallbackMode -> round all g c r t false -> served all g c (l ++ t ++ [OTold g]).

(** Did a handler panic? *)
Definition bad (o : ob) : bool := match o with OOut _ _ false | OCount _ _ false => true | _ => false end.
(** Was the event given to an output handler? To a statistics handler? *)
Definition is_out (o : ob) : bool := match o with OOut _ _ _ => true | _ => false end.
Definition is_count (o : ob) : bool := match o with OCount _ _ _ => true | _ => false end.
Definition is_made (o : ob) : bool := match o with OMade _ _ _ => true | _ => false end.
(** Is it a step of call [g]? *)
Definition step_of (g : nat) (e : event) : bool :=
  match e with
  | SetMin _ => false
  | Begin v _ | Load v | Makes v _ | Store v | Handles v | Outs v _ | Counts v _ | Recovers v => (v =? g)%nat
  end.

(** Handlers made for the place of the call, after a panic *)
Definition of_place (all : list ob) (c : call) (r : root nat) : Prop := r_mode r = FallbackMode /\ File (r_site r) = cfile c /\ Line (r_site r) = cline c /\ known all r.
(** Nothing, or that the call made its handlers *)
Definition short (g : nat) (r : root nat) (l : list ob) : Prop := l = [] \/ l = [own g r].
(** The call made one round over handlers for its place, and a panic of them was told *)
Definition by_place (all : list ob) (g : nat) (c : call) (m : list ob) : Prop :=
  exists r l t (b : bool), m = OBegin g c :: l ++ t ++ (if b then [] else [OTold g]) ++ [ORet g] /\ short g r l /\ of_place all c r /\ round all g c r t b.
(** How often the event was given to an output handler, to a statistics handler *)
Definition outs (l : list ob) : nat := List.length (filter is_out l).
Definition counts (l : list ob) : nat := List.length (filter is_count l).
(** The event is redirected (root.go:75-78), and no call with its name is between the look into the cache and Store (countlog.go:199-218) *)
Definition quiet (n : bytes) (s : state) : Prop := (exists st, byEvent s n = Some (Redirector st)) /\ forall g, match pcs (world s) g with LMissed c | LMade c _ => cname c <> n | _ => True end.
