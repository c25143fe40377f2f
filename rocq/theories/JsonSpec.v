(** A JSON reader after RFC 8259, independent of the repository. *)
From Verif Require Import Base DecimalSpec JsonStrSpec.

(** Numbers are kept as their text (so that any numeric reading can be applied to them); objects keep
    their members in order. *)
Inductive json :=
| JNull | JBool (b : bool) | JNum (text : bytes) | JStr (s : bytes)
| JArr (l : list json) | JObj (l : list (bytes * json)).

Definition is_ws (c : Z) : bool := (c =? 32) || (c =? 9) || (c =? 10) || (c =? 13).
Fixpoint skip_ws (s : bytes) : bytes :=
  match s with
  | c :: r => if is_ws c then skip_ws r else s
  | [] => []
  end.

Fixpoint strip_prefix (p s : bytes) : option bytes :=
  match p, s with
  | [], _ => Some s
  | a :: p', b :: s' => if a =? b then strip_prefix p' s' else None
  | _ :: _, [] => None
  end.

(** number = [ minus ] int [ frac ] [ exp ] *)
Fixpoint span_digits (s : bytes) : bytes * bytes :=
  match s with
  | c :: r => if is_digit c then let '(d, r') := span_digits r in (c :: d, r') else ([], s)
  | [] => ([], [])
  end.
Definition lex_minus (s : bytes) : bytes * bytes :=
  match s with c :: r => if c =? 45 then ([45], r) else ([], s) | [] => ([], []) end.
Definition lex_int (s : bytes) : option (bytes * bytes) :=
  match s with
  | c :: r => if c =? 48 then Some ([48], r) else if is_digit c then Some (span_digits s) else None
  | [] => None
  end.
Definition lex_frac (s : bytes) : option (bytes * bytes) :=
  match s with
  | c :: r => if c =? 46 then match span_digits r with ([], _) => None | (d, r') => Some (46 :: d, r') end
              else Some ([], s)
  | [] => Some ([], [])
  end.
Definition lex_exp (s : bytes) : option (bytes * bytes) :=
  match s with
  | c :: r =>
    if (c =? 101) || (c =? 69) then
      let '(sg, r1) := match r with
                       | d :: r' => if (d =? 43) || (d =? 45) then ([d], r') else ([], r)
                       | [] => ([], []) end in
      match span_digits r1 with ([], _) => None | (d, r') => Some (c :: sg ++ d, r') end
    else Some ([], s)
  | [] => Some ([], [])
  end.
Definition lex_number (s : bytes) : option (bytes * bytes) :=
  let '(m, r1) := lex_minus s in
  let? p := lex_int r1 in let '(i, r2) := p in
  let? p := lex_frac r2 in let '(f, r3) := p in
  let? p := lex_exp r3 in let '(e, r4) := p in
  Some (m ++ i ++ f ++ e, r4).

(** A value at the start of the text, and the rest.  [n] bounds the nesting; see [parses]. *)
Fixpoint value (n : nat) (s : bytes) : option (json * bytes) :=
  match n with
  | O => None
  | S n =>
    match skip_ws s with
    | [] => None
    | c :: r =>
      if c =? 110 then let? r' := strip_prefix (bs "ull") r in Some (JNull, r')
      else if c =? 116 then let? r' := strip_prefix (bs "rue") r in Some (JBool true, r')
      else if c =? 102 then let? r' := strip_prefix (bs "alse") r in Some (JBool false, r')
      else if c =? 34 then let? p := json_string (c :: r) in let '(x, r') := p in Some (JStr x, r')
      else if c =? 91 then
        match skip_ws r with
        | d :: r' => if d =? 93 then Some (JArr [], r')
                     else let? p := elements n r in let '(l, r') := p in Some (JArr l, r')
        | [] => None
        end
      else if c =? 123 then
        match skip_ws r with
        | d :: r' => if d =? 125 then Some (JObj [], r')
                     else let? p := members n r in let '(l, r') := p in Some (JObj l, r')
        | [] => None
        end
      else let? p := lex_number (c :: r) in let '(x, r') := p in Some (JNum x, r')
    end
  end
with elements (n : nat) (s : bytes) : option (list json * bytes) :=
  match n with
  | O => None
  | S n =>
    let? p := value n s in
    let '(v, r) := p in
    match skip_ws r with
    | c :: r' => if c =? 93 then Some ([v], r')
                 else if c =? 44 then let? p := elements n r' in let '(l, r'') := p in Some (v :: l, r'')
                 else None
    | [] => None
    end
  end
with members (n : nat) (s : bytes) : option (list (bytes * json) * bytes) :=
  match n with
  | O => None
  | S n =>
    let? p := json_string (skip_ws s) in
    let '(k, r) := p in
    match skip_ws r with
    | [] => None
    | c :: r =>
      if c =? 58 then
        let? p := value n r in
        let '(v, r) := p in
        match skip_ws r with
        | c :: r' => if c =? 125 then Some ([(k, v)], r')
                     else if c =? 44 then let? p := members n r' in let '(l, r'') := p in Some ((k, v) :: l, r'')
                     else None
        | [] => None
        end
      else None
    end
  end.

(** [text] is a JSON text whose value is [j]. *)
Definition parses (text : bytes) (j : json) : Prop :=
  exists n r, value n text = Some (j, r) /\ skip_ws r = [].
