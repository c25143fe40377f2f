(** What is expected of witch's event queue, in terms of what is seen from outside.  The functions only sort what was seen. *)
From Verif Require Import Base JsonSpec WitchModel.

(** The records that were accepted, in order *)
Definition accepted (o : list output) : list bytes :=
  flat_map (fun x => match x with OReturn _ (Some b) => [b] | _ => [] end) o.
(** The number of records that were dropped *)
Definition drops (o : list output) : nat :=
  List.length (filter (fun x => match x with OReturn _ None => true | _ => false end) o).
(** The records that were taken, by anyone, or by request r *)
Definition taken (o : list output) : list bytes := flat_map (fun x => match x with OTake _ b => [b] | _ => [] end) o.
Definition taken_by (r : nat) (o : list output) : list bytes :=
  flat_map (fun x => match x with OTake r' b => if Nat.eqb r' r then [b] else [] | _ => [] end) o.
(** The numbers that were printed *)
Definition messages (o : list output) : list Z := flat_map (fun x => match x with OMessage n => [n] | _ => [] end) o.
(** 1, 10001, 20001, ... up to n *)
Definition due (n : nat) : list Z :=
  map Z.of_nat (filter (fun k => Nat.eqb (Nat.modulo k (Z.to_nat 10000)) 1) (seq 1 n)).
(** The elements with commas between them *)
Fixpoint commas (l : list bytes) : bytes :=
  match l with
  | [] => []
  | [x] => x
  | x :: l => x ++ bs "," ++ commas l
  end.
(** The JSON values of a list of texts *)
Definition values (l : list bytes) (js : list json) : Prop := Forall2 parses l js.
(** The responses to request r *)
Definition responses (r : nat) (o : list output) : list bytes :=
  flat_map (fun x => match x with OResponse r' b => if Nat.eqb r' r then [b] else [] | _ => [] end) o.
(** How often request r went through its loop *)
Definition passes (r : nat) (l : list event) : nat :=
  List.length (filter (fun e => match e with ENext r' => Nat.eqb r' r | _ => false end) l).
