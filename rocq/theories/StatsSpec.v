(** What counting means, told by the events. *)
From Verif Require Import Base MsgfmtModel StatsModel.

(** How often dimension d was counted, and the sum of the values exported for it. *)
Fixpoint counted (evs : list event) (d : list bytes) : Z :=
  match evs with
  | [] => 0
  | HExtract _ (Some d') :: evs => (if list_eq_dec (list_eq_dec Z.eq_dec) d' d then 1 else 0) + counted evs d
  | _ :: evs => counted evs d
  end.
Fixpoint exported (evs : list event) (d : list bytes) : Z :=
  match evs with
  | [] => 0
  | XCollect _ p :: evs => (if list_eq_dec (list_eq_dec Z.eq_dec) (Dimension p) d then Value p else 0) + exported evs d
  | _ :: evs => exported evs d
  end.
(** What the shards hold. *)
Definition held (m : list (list bytes * Z)) (d : list bytes) : Z := match get m d with Some c => c | None => 0 end.
Definition in_memory (s : window) (d : list bytes) : Z :=
  fold_right Z.add 0 (map (fun i => held (shards s i) d) (seq 0 16)).
(** No event is counted. *)
Definition nothing_counted (evs : list event) : Prop := forall h d, ~ In (HExtract h (Some d)) evs.

(** Texts joined by commas. *)
Fixpoint joined (names : list bytes) : bytes :=
  match names with
  | [] => []
  | [n] => n
  | n :: names => n ++ bs "," ++ joined names
  end.
(** Properties as pairs, and as the list they are passed as. *)
Definition flat (kvs : list (bytes * value)) : list value := flat_map (fun kv => [VStr (fst kv); snd kv]) kvs.
(** The dimension of an event with string values: each pair whose key is named, as often as it is named. *)
Definition dimension (names : list bytes) (kvs : list (bytes * bytes)) : list bytes :=
  flat_map (fun kv => List.concat (repeat [fst kv; snd kv] (count_occ (list_eq_dec Z.eq_dec) names (fst kv)))) kvs.
(** How many exports began. *)
Definition exports (evs : list gevent) : nat := List.length (filter (fun e => match e with ExportBegins => true | _ => false end) evs).
(** The aggregation a site asks for: its Agg, or else the first property "agg" of its first event. *)
Definition asked (agg : bytes) (kvs : list (bytes * value)) : option value :=
  match agg with
  | _ :: _ => Some (VStr agg)
  | [] => option_map snd (find (fun kv => if list_eq_dec Z.eq_dec (fst kv) (bs "agg") then true else false) kvs)
  end.
