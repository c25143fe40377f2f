(** The calls of handlers that a logging call makes: an environment that records them, and what they should be. *)
From Verif Require Import Base CountlogModel.

Section Traced.
  Context {W H : Type}.
  (** A call of Handle: of which handler, with what, and how it ended *)
  Definition hcall : Type := H * event * ends.
  (** The same environment, with a record of the calls of Handle *)
  Definition plain (s : state (W * list hcall) H) : state W H := mkState (st_levels s) (byEvent s) (byPlace s) (fst (world s)).
  Definition traced (E : environment W H) : environment (W * list hcall) H := {|
    aggregatorHandlerOf st w := let '(w', x) := aggregatorHandlerOf E st (fst w) in ((w', snd w), x);
    writerHandlerOf st w := let '(w', x) := writerHandlerOf E st (fst w) in ((w', snd w), x);
    handle h ev w := let '(w', x) := handle E h ev (fst w) in ((w', snd w ++ [(h, ev, snd x)]), x);
    loglogError w := (loglogError E (fst w), snd w);
    printStack w := (printStack E (fst w), snd w);
    sprint name ps w := let '(w', x) := sprint E name ps (fst w) in ((w', snd w), x);
    others s := let s' := others E (plain s) in mkState (st_levels s') (byEvent s') (byPlace s') (world s', snd (world s))
  |}.

  (** One round over the handlers of a root: the output first, if the event passes, then the statistics if the output returned *)
  Inductive round (call_level : Z) (r : root H) : event -> list hcall -> ends -> Prop :=
  | round_output ev e : r_stats r = None -> round call_level r ev [(r_out r, ev, e)] e
  | round_quiet ev h e : r_stats r = Some h -> Level ev < call_level -> round call_level r ev [(h, ev, e)] e
  | round_stopped ev h e : r_stats r = Some h -> call_level <= Level ev -> e <> Returned -> round call_level r ev [(r_out r, ev, e)] e
  | round_both ev ev' h e : r_stats r = Some h -> call_level <= Level ev -> round call_level r ev [(r_out r, ev, Returned); (h, ev', e)] e.
End Traced.

(** What a logging call may do with the handlers: nothing if there are none to be had, one round, or two, the first of which ended with a panic *)
Inductive handed {H} (call_level : Z) (ev : event) : list (hcall (H := H)) -> Prop :=
| handed_none : handed call_level ev []
| handed_once r calls e : round call_level r ev calls e -> handed call_level ev calls
| handed_twice r r2 calls ev2 calls2 e2 : round call_level r ev calls Panicked -> round call_level r2 ev2 calls2 e2 -> r_mode r = NormalMode ->
    File (r_site r2) = bs "unknown" -> SiteEvent (r_site r2) = SiteEvent (r_site r) -> handed call_level ev (calls ++ calls2).
(** The state after a call *)
Definition endOf {S A} (r : result S A) : S := match r with Ret _ s | Pan s | Never s => s end.
