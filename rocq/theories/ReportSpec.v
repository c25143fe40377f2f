(** What the report of a failed check is to be. *)
From Verif Require Import Base.

(** The lines of a text *)
Fixpoint unlines (ls : list bytes) : bytes :=
  match ls with
  | [] => []
  | [l] => l
  | l :: ls => l ++ [10] ++ unlines ls
  end.
Definition lines_of (content : bytes) (ls : list bytes) : Prop := ls <> [] /\ content = unlines ls /\ Forall (fun l => ~ In 10 l) ls.
(** Opening less closing parentheses *)
Fixpoint balance (l : bytes) : Z :=
  match l with
  | [] => 0
  | c :: l => (if c =? 40 then 1 else if c =? 41 then -1 else 0) + balance l
  end.
(** [n] lines, at least one, are the fewest whose parentheses balance *)
Definition fewest (measure : bytes -> Z) (rest : list bytes) (n : nat) : Prop :=
  (1 <= n <= List.length rest)%nat /\ measure (unlines (firstn n rest)) = 0 /\ forall j, (1 <= j < n)%nat -> measure (unlines (firstn j rest)) <> 0.

(** Parentheses of Go code: not those in literals and comments *)
Inductive lexing := Code | Quoted (q : Z) | Escaped (q : Z) | Slash | ToEndOfLine | Comment | Star.
Fixpoint code_balance (s : lexing) (l : bytes) : Z :=
  match l with
  | [] => 0
  | c :: l =>
    let code := if c =? 40 then 1 + code_balance Code l else if c =? 41 then -1 + code_balance Code l
                else if (c =? 34) || (c =? 39) || (c =? 96) then code_balance (Quoted c) l else if c =? 47 then code_balance Slash l else code_balance Code l in
    match s with
    | Code => code
    | Quoted q => if c =? q then code_balance Code l else if (c =? 92) && negb (q =? 96) then code_balance (Escaped q) l else code_balance (Quoted q) l
    | Escaped q => code_balance (Quoted q) l
    | Slash => if c =? 47 then code_balance ToEndOfLine l else if c =? 42 then code_balance Comment l else code
    | ToEndOfLine => if c =? 10 then code_balance Code l else code_balance ToEndOfLine l
    | Comment => if c =? 42 then code_balance Star l else code_balance Comment l
    | Star => if c =? 47 then code_balance Code l else if c =? 42 then code_balance Star l else code_balance Comment l
    end
  end.
