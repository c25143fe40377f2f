(** What the printing functions of go-spew are expected to do: what fmt does, except for the verb v. *)
From Verif Require Import Base JsonStrSpec DecimalSpec ParseModel ParseSpec SpewPrintModel.

(** The verbs of a format that take an operand, in their order; for formats without [*] *)
Fixpoint verbsFrom (fuel : nat) (s : bytes) : list Z :=
  match fuel with
  | O => []
  | S fuel =>
    match snd (literal s) with
    | [] => []
    | _ :: s =>
      let '(st, s) := parseFlags noFlags s in
      let '(st, s, _, _) := parseWidth unit (fun _ => None) st s [] in
      let '(st, s, _, _) := parsePrec unit (fun _ => None) st s [] in
      match s with
      | [] => []
      | _ :: _ =>
        let '(verb, w) := DecodeRune s in
        (if verb =? 37 then [] else [verb]) ++ verbsFrom fuel (skipn (Z.to_nat w) s)
      end
    end
  end.
Definition verbs (format : bytes) : list Z := verbsFrom (S (List.length format)) format.

(** No [*] and no argument index *)
Definition plain (format : bytes) : Prop := ~ In 42 format /\ ~ In 91 format.

(** strconv.Itoa *)
Definition decimal (itoa : Z -> bytes) : Prop := forall n, 0 <= n -> canon_nat (itoa n) n.

Section Meaning.
  Variable V : Type.
  Variable vPrint : state -> Z -> V -> bytes.
  Variable fmtS : state -> bytes -> bytes.
  Variable fmtPointer : state -> V -> bytes.
  Variable spewV : bool -> bool -> V -> bytes.
  (** The text for one operand: for %v the formatter's, without regard to width and precision; for %T and %p the formatter's type and address; else fmt's *)
  Definition meaning (st : state) (verb : Z) (v : V) : bytes :=
    if verb =? 118 then spewV (sharp st) (plus st) v
    else if verb =? 84 then fmtS st (bs "*spew.formatState") else if verb =? 112 then fmtPointer st v
    else vPrint st verb v.
  (** Texts with spaces between them *)
  Fixpoint spaced (l : list bytes) : bytes := match l with [] => [] | [t] => t | t :: l => t ++ [32] ++ spaced l end.
End Meaning.

(** ** Formats as they are written *)
(** A directive: flags, a width and a precision in digits, a verb *)
Record written_verb := mkVerb { vflags : bytes; vwidth : bytes; vprec : option bytes; vverb : Z }.
Inductive piece := PText (t : bytes) | PVerb (d : written_verb).
Definition piece_text (p : piece) : bytes :=
  match p with
  | PText t => t
  | PVerb d => bs "%" ++ vflags d ++ vwidth d ++ match vprec d with None => [] | Some t => bs "." ++ t end ++ utf8 (vverb d)
  end.
(** Numbers of up to six digits; a width does not begin with the flag 0; a verb is no flag, digit, point, asterisk or bracket *)
Definition digits6 (t : bytes) : Prop := forallb is_digit t = true /\ (List.length t <= 6)%nat.
Definition piece_ok (p : piece) : Prop :=
  match p with
  | PText t => ~ In 37 t
  | PVerb d => (forall c, In c (vflags d) -> In c (bs "#0+- ")) /\ digits6 (vwidth d) /\ hd 49 (vwidth d) <> 48 /\
      match vprec d with None => True | Some t => digits6 t end /\
      is_scalar (vverb d) /\ ~ In (vverb d) (bs "#+- 0123456789.*[")
  end.
(** What it asks for; with a minus there is no padding with zeros *)
Definition mem (c : Z) (l : bytes) : bool := existsb (Z.eqb c) l.
Definition asked_for (d : written_verb) : state :=
  mkState (mem 45 (vflags d)) (mem 43 (vflags d)) (mem 35 (vflags d)) (mem 32 (vflags d)) (mem 48 (vflags d) && negb (mem 45 (vflags d)))
    (match vwidth d with [] => None | t => Some (digits_value t) end) (option_map digits_value (vprec d)).
Section Pieces.
  Variable V : Type.
  Variable print : state -> Z -> V -> bytes.
  Variable left_over : V -> bytes.
  Fixpoint commas (l : list bytes) : bytes := match l with [] => [] | [t] => t | t :: l => t ++ bs ", " ++ commas l end.
  (** Each directive takes an operand, but for %% *)
  Fixpoint pieces_text (ps : list piece) (args : list V) : bytes :=
    match ps with
    | [] => match args with [] => [] | _ => bs "%!(EXTRA " ++ commas (map left_over args) ++ bs ")" end
    | PText t :: ps => t ++ pieces_text ps args
    | PVerb d :: ps =>
      if vverb d =? 37 then bs "%" ++ pieces_text ps args
      else
        match args with
        | [] => bs "%!" ++ utf8 (vverb d) ++ bs "(MISSING)" ++ pieces_text ps []
        | a :: args => print (asked_for d) (vverb d) a ++ pieces_text ps args
        end
    end.
End Pieces.

(** The calls of one goroutine do not overlap those of another: from Begin to the end of a call there are only its own steps *)
Fixpoint alone (cs : list (nat * list bytes)) : list event :=
  match cs with
  | [] => []
  | (i, writes) :: cs => Begin i writes :: repeat (Continue i) (S (List.length writes)) ++ alone cs
  end.
(** No goroutine has begun a call; the array of percentBytes has [%] at its front and room for [spare] *)
Definition fresh (spare : bytes) : world := (37 :: spare, fun _ => None).
(** The calls that were begun by goroutine [i], the last one first *)
Definition begun (i : nat) (es : list event) : list (list bytes) :=
  rev (flat_map (fun e => match e with Begin j w => if (j =? i)%nat then [w] else [] | Continue _ => [] end) es).
