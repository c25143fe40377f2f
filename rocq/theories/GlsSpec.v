(** What goroutine local storage means, told by the events of the past (newest first). *)
From Verif Require Import Base GlsModel.

(** A storage is installed on g: the last Enter/Exit of g is an Enter. *)
Fixpoint enabled (past : list event) (g : Z) : bool :=
  match past with
  | [] => false
  | Enter g' _ :: past => if g' =? g then true else enabled past g
  | Exit g' :: past => if g' =? g then false else enabled past g
  | _ :: past => enabled past g
  end.

Section Value.
  Variable Copy : Z -> option Z.
  Definition inherit (v : Z) : Z := if v =? 0 then 0 else match Copy v with Some w => w | None => v end.

  (** The value of key k on g: the last one g set since its storage was installed, else what the function had
      captured when it was wrapped, which is (a copy of) the value of k on the wrapping goroutine at that time. *)
  Fixpoint value (past : list event) (g k : Z) : Z :=
    match past with
    | [] => 0
    | e :: past =>
      match e with
      | SetEnd g' k' v => if (g' =? g) && (k' =? k) && enabled past g then v else value past g k
      | Enter g' c => if g' =? g then captured past c k else value past g k
      | Exit g' => if g' =? g then 0 else value past g k
      | _ => value past g k
      end
    end
  with captured (past : list event) (c : nat) (k : Z) : Z :=
    match past with
    | [] => 0
    | e :: past =>
      match e with
      | WithEnd g' c' => if (c' =? c)%nat then inherit (value past g' k) else captured past c k
      | WithEmpty _ c' => if (c' =? c)%nat then 0 else captured past c k
      | _ => captured past c k
      end
    end.
End Value.

(** Number of times the wrapped function c was started; and whether it inherits. *)
Definition starts (past : list event) (c : nat) : nat :=
  List.length (filter (fun e => match e with Enter _ c' => (c' =? c)%nat | _ => false end) past).
Definition inherits (past : list event) (c : nat) : Prop := exists g, In (WithEnd g c) past.
(** Every inheriting wrapped function is started at most once. *)
Definition started_once (past : list event) : Prop := forall c, inherits past c -> (starts past c <= 1)%nat.

(** How many wrapped functions are running on g, and that none is started while another runs on g. *)
Fixpoint depth (past : list event) (g : Z) : Z :=
  match past with
  | [] => 0
  | Enter g' _ :: past => if g' =? g then depth past g + 1 else depth past g
  | Exit g' :: past => if g' =? g then depth past g - 1 else depth past g
  | _ :: past => depth past g
  end.
Fixpoint unnested (past : list event) : Prop :=
  match past with
  | [] => True
  | Enter g _ :: past => depth past g = 0 /\ unnested past
  | Exit g :: past => depth past g = 1 /\ unnested past
  | _ :: past => unnested past
  end.
Definition by_g (e : event) : Z :=
  match e with
  | WithStart g | WithEnd g _ | WithEmpty g _ | Enter g _ | Exit g | GetStart g _ | GetEnd g _ | SetStart g _ _ | SetEnd g _ _ => g
  end.
