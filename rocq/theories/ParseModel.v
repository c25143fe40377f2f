(** Model of parse/parse.go (the Source), parse/utf8.go, parse/read/*.go and parse/skip/*.go. *)
From Verif Require Import Base JsonIntModel.

(** Errors: io.EOF, an error of the reader, or errors.New(m). parse.go:51-58, 119-177. *)
Inductive err := EOF | ErrReader (n : Z) | ErrMsg (m : bytes).

(** An io.Reader (outside the repository): the results of its coming Read calls, then [r_end] with no data
    for ever.  The buffer handed to Read only limits the chunk sizes, which are arbitrary here. parse.go:60-61. *)
Record Reader := mkReader { r_reads : list (bytes * option err); r_end : err }.

(** One call of reader.Read, as made in parse.go:61, 106 and 147. *)
Definition Read (r : Reader) : bytes * option err * Reader :=
  match r_reads r with
  | [] => ([], Some (r_end r), r)
  | (c, e) :: l => (c, e, mkReader l (r_end r))
  end.

(** parse.go:51-58.  Slices are modelled by their contents; [buf] is only a scratch buffer for Read and
    [Attachment] is never used by the package, so both are left out. *)
Record Source := mkSource {
  s_err : option err;
  s_reader : option Reader;
  s_current : bytes;
  s_next : list bytes
}.

(** Result of a method that may panic or, with a limit on the rounds of its loop, not finish. parse.go:60-177. *)
Inductive res (A : Type) := Ok (a : A) (s : Source) | Panic | OutOfFuel.
Arguments Ok {A}. Arguments Panic {A}. Arguments OutOfFuel {A}.
(** A method of Source, parse.go:60-177, as a function from one state to the next *)
Definition M (A : Type) := Source -> res A.
(** return, in parse.go:60-177 *)
Definition ret {A} (a : A) : M A := fun s => Ok a s.
(** One statement after another, in parse.go:60-177 *)
Definition bind {A B} (m : M A) (k : A -> M B) : M B := fun s =>
  match m s with Ok a s' => k a s' | Panic => Panic | OutOfFuel => OutOfFuel end.
Notation "'do' x <- m ; k" := (bind m (fun x => k)) (at level 200, x pattern, m at level 100, k at level 200).
Notation "'run' m ; k" := (bind m (fun _ => k)) (at level 200, m at level 100, k at level 200).

(** parse.go:60-70.  [None]: the nil *Source. *)
Definition NewSource (r : Reader) : option Source * option err :=
  let '(c, e, r') := Read r in
  match c with
  | [] => (None, e)
  | _ => (Some (mkSource None (Some r') c []), None)
  end.

(** parse.go:72-76 *)
Definition NewSourceString (s : bytes) : Source := mkSource None None s [].

(** parse.go:82-84 *)
Definition Peek (s : Source) : bytes := s_current s.

(** parse.go:86-88 *)
Definition Peek1 : M Z := fun s =>
  match s_current s with [] => Panic | c :: _ => Ok c s end.

(** parse.go:169-173 *)
Definition ReportError (e : err) (s : Source) : Source :=
  match s_err s with
  | None => mkSource (Some e) (s_reader s) (s_current s) (s_next s)
  | Some _ => s
  end.

(** parse.go:175-177 *)
Definition Error (s : Source) : option err := s_err s.

(** parse.go:98-103: the loop over nextList; [inl]: enough bytes found. *)
Fixpoint peekNext (n : nat) (peeked : bytes) (l : list bytes) : bytes + bytes :=
  match l with
  | [] => inr peeked
  | next :: r =>
    let peeked := peeked ++ next in
    if (n <=? List.length peeked)%nat then inl (firstn n peeked) else peekNext n peeked r
  end.

(** parse.go:104-116.  Each round is one Read; when the list of prepared results is used up, the next Read
    gives (0, r_end), which ends the loop.  Returns the peeked bytes, the error, the chunks appended to
    nextList and the remaining reads. *)
Fixpoint peekReads (n : nat) (peeked : bytes) (reads : list (bytes * option err)) (fin : err)
  : bytes * option err * list bytes * list (bytes * option err) :=
  match reads with
  | [] => if (n <=? List.length peeked)%nat then (firstn n peeked, None, [[]], [])
          else (peeked, Some fin, [[]], [])
  | (next, e) :: r =>
    let peeked := peeked ++ next in
    if (n <=? List.length peeked)%nat then (firstn n peeked, None, [next], r)
    else match e with
    | Some e => (peeked, Some e, [next], r)
    | None => let '(p, e, l, r') := peekReads n peeked r fin in (p, e, next :: l, r')
    end
  end.

(** parse.go:90-117, for n >= 0 (a negative n panics).  The append at 99 and 108 may write into the spare
    capacity of the buffer behind src.current, which is not part of any slice in use. *)
Definition PeekN (n : nat) (s : Source) : bytes * option err * Source :=
  if (n <=? List.length (s_current s))%nat then (firstn n (s_current s), None, s)
  else match s_reader s with
  | None => (s_current s, Some EOF, s)
  | Some r =>
    match peekNext n (s_current s) (s_next s) with
    | inl p => (p, None, s)
    | inr peeked =>
      let '(p, e, l, reads) := peekReads n peeked (r_reads r) (r_end r) in
      (p, e, mkSource (s_err s) (Some (mkReader reads (r_end r))) (s_current s) (s_next s ++ l))
    end
  end.

(** parse.go:136-152 *)
Definition Consume (s : Source) : Source :=
  match s_reader s with
  | None => ReportError EOF (mkSource (s_err s) None [] (s_next s))
  | Some r =>
    match s_next s with
    | c :: l => mkSource (s_err s) (Some r) c l
    | [] =>
      let '(c, e, r') := Read r in
      let s' := mkSource (s_err s) (Some r') c [] in
      match e with Some e => ReportError e s' | None => s' end
    end
  end.

(** parse.go:119-125, for n >= 0 (a negative n panics).  [fuel] limits the rounds of the loop. *)
Fixpoint consumeLoop (fuel : nat) (n : nat) : M unit := fun s =>
  match fuel with
  | O => OutOfFuel
  | S fuel =>
    if negb (n =? 0)%nat && (List.length (s_current s) <=? n)%nat
    then consumeLoop fuel (n - List.length (s_current s)) (Consume s)
    else Ok tt (mkSource (s_err s) (s_reader s) (skipn n (s_current s)) (s_next s))
  end.

(** A number of rounds after which parse.go:120 and the loops of read and skip can make no more progress:
    every chunk that is still to come, and two more.  (Proved: more rounds never change the result.) *)
Definition rounds (s : Source) : nat :=
  2 + List.length (s_next s) + match s_reader s with None => 0 | Some r => List.length (r_reads r) end.

(** parse.go:119-125 *)
Definition ConsumeN (n : nat) : M unit := fun s => consumeLoop (rounds s) n s.

(** parse.go:127-134 *)
Definition Consume1 (b1 : Z) : M unit := fun s =>
  match s_current s with
  | [] => Panic
  | c :: _ =>
    ConsumeN 1 (if b1 =? c then s
                else ReportError (ErrMsg (bs "expect " ++ [b1] ++ bs " but found " ++ [c])) s)
  end.

(** utf8.go:8: the table, written by its ranges; and the constants xx and as. *)
Definition c_xx : Z := 0xF1.
(** utf8.go:9: the constant as *)
Definition c_as : Z := 0xF0.
(** utf8.go:20-39: the table *)
Definition first (b : Z) : Z :=
  if b <? 0x80 then c_as
  else if b <? 0xC2 then c_xx
  else if b <? 0xE0 then 0x02
  else if b =? 0xE0 then 0x13
  else if b =? 0xED then 0x23
  else if b <? 0xF0 then 0x03
  else if b =? 0xF0 then 0x34
  else if b <? 0xF4 then 0x04
  else if b =? 0xF4 then 0x44
  else c_xx.

(** utf8.RuneError *)
Definition RuneError : Z := 0xFFFD.

(** utf8.DecodeRune of the Go library, called at parse.go:162 and 166 (with the same table [first]).
    Bit operations on disjoint bits are written arithmetically. *)
Definition acceptRange (i : Z) : Z * Z :=
  if i =? 1 then (0xA0, 0xBF) else if i =? 2 then (0x80, 0x9F) else if i =? 3 then (0x90, 0xBF)
  else if i =? 4 then (0x80, 0x8F) else (0x80, 0xBF).
(** utf8.DecodeRune of the Go library: locb <= b <= hicb *)
Definition contByte (b : Z) : bool := (0x80 <=? b) && (b <=? 0xBF).
(** utf8.DecodeRune of the Go library, called at parse.go:162 and 166 *)
Definition DecodeRune (p : bytes) : Z * Z :=
  match p with
  | [] => (RuneError, 0)
  | p0 :: p =>
    let x := first p0 in
    if x =? c_as then (p0, 1)
    else if x =? c_xx then (RuneError, 1)
    else
      let sz := x mod 8 in
      let '(lo, hi) := acceptRange (x / 16) in
      match p with
      | [] => (RuneError, 1)
      | b1 :: p =>
        if (sz <=? 2) then
          if (b1 <? lo) || (hi <? b1) then (RuneError, 1)
          else (p0 mod 32 * 64 + b1 mod 64, 2)
        else
          match p with
          | [] => (RuneError, 1)
          | b2 :: p =>
            if (sz <=? 3) then
              if (b1 <? lo) || (hi <? b1) then (RuneError, 1)
              else if negb (contByte b2) then (RuneError, 1)
              else (p0 mod 16 * 4096 + b1 mod 64 * 64 + b2 mod 64, 3)
            else
              match p with
              | [] => (RuneError, 1)
              | b3 :: _ =>
                if (b1 <? lo) || (hi <? b1) then (RuneError, 1)
                else if negb (contByte b2) then (RuneError, 1)
                else if negb (contByte b3) then (RuneError, 1)
                else (p0 mod 8 * 262144 + b1 mod 64 * 4096 + b2 mod 64 * 64 + b3 mod 64, 4)
              end
          end
      end
  end.

(** parse.go:154-167 *)
Definition PeekRune (s : Source) : (Z * Z) * Source :=
  match s_current s with
  | [] => ((RuneError, 1), s)
  | p0 :: _ =>
    let x := first p0 in
    if c_as <=? x then (DecodeRune (s_current s), s)
    else
      let '(fullBuf, _, s') := PeekN (Z.to_nat (Z.land x 7)) s in
      (DecodeRune fullBuf, s')
  end.

(** * read and skip *)

(** What the body of a scanning loop does with one byte: go on, stop before it, or report an error.
    read/any.go:5-35, read/int.go:70-94, skip/space.go:8-26. *)
Inductive verdict (A : Type) := Go (a : A) | Stop | Fail (e : err).
Arguments Go {A}. Arguments Stop {A}. Arguments Fail {A}.

(** The inner loop [for i := 0; i < len(buf); i++] common to any.go:8-15, 24-31, int.go:74-90, space.go:12-21. *)
Fixpoint scanBuf {A} (body : A -> Z -> verdict A) (a : A) (i : nat) (buf : bytes) : A * nat * verdict unit :=
  match buf with
  | [] => (a, i, Go tt)
  | c :: r =>
    match body a c with
    | Go a' => scanBuf body a' (S i) r
    | Stop => (a, i, Stop)
    | Fail e => (a, i, Fail e)
    end
  end.

(** The outer loop [for src.Error() == nil] of the same functions.  [zero] is what is returned on Fail.
    [fuel] limits the rounds. read/any.go:6, read/int.go:72, skip/space.go:10. *)
Fixpoint scanLoop {A} (body : A -> Z -> verdict A) (zero : A) (fuel : nat) (a : A) : M A := fun s =>
  match fuel with
  | O => OutOfFuel
  | S fuel =>
    match s_err s with
    | Some _ => Ok a s
    | None =>
      match scanBuf body a 0 (Peek s) with
      | (a', _, Go _) => scanLoop body zero fuel a' (Consume s)
      | (a', i, Stop) => (run ConsumeN i; ret a') s
      | (_, _, Fail e) => Ok zero (ReportError e s)
      end
    end
  end.
(** The two loops of read/any.go:5-35, read/int.go:70-94, skip/space.go:8-26 *)
Definition scan {A} (body : A -> Z -> verdict A) (zero : A) (a : A) : M A := fun s =>
  scanLoop body zero (rounds s) a s.

(** read/any.go:5-19 *)
Definition AnyExcept1 (space : bytes) (b1 : Z) : M bytes :=
  scan (fun space b => if b =? b1 then Stop else Go (space ++ [b])) [] space.

(** read/any.go:21-35 *)
Definition AnyExcept2 (space : bytes) (b1 b2 : Z) : M bytes :=
  scan (fun space b => if (b =? b1) || (b =? b2) then Stop else Go (space ++ [b])) [] space.

(** read/int.go:10-23: intDigits, as a function of the byte. *)
Definition intDigits (c : Z) : Z := if (48 <=? c) && (c <=? 57) then c - 48 else -1.
(** read/int.go:13 *)
Definition uint64SafeToMultiple10 : Z := 0xffffffffffffffff / 10 - 1.

(** read/int.go:70-94 *)
Definition uint64Body (value c : Z) : verdict Z :=
  let ind := intDigits c in
  if ind =? -1 then Stop
  else if uint64SafeToMultiple10 <? value then
    let value2 := u64 (u64 (u64 (Z.shiftl value 3) + u64 (Z.shiftl value 1)) + ind) in
    if value2 <? value then Fail (ErrMsg (bs "uint64: overflow")) else Go value2
  else Go (u64 (u64 (u64 (Z.shiftl value 3) + u64 (Z.shiftl value 1)) + ind)).
(** read/int.go:70-94 *)
Definition Uint64 : M Z := scan uint64Body 0 0.

(** src.ReportError(e); return v; as in read/int.go:51-94 *)
Definition report {A} (e : err) (v : A) : M A := fun s => Ok v (ReportError e s).

(** read/int.go:51-68.  [-int64(val)] wraps. *)
Definition Int64 : M Z :=
  do c <- Peek1;
  if c =? 45 then
    run ConsumeN 1;
    do val <- Uint64;
    if 9223372036854775808 <? val then report (ErrMsg (bs "int64: overflow")) 0
    else ret (wrap_signed 64 (- wrap_signed 64 val))
  else
    do val <- Uint64;
    if 9223372036854775807 <? val then report (ErrMsg (bs "int64: overflow")) 0
    else ret (wrap_signed 64 val).

(** read/int.go:32-49 *)
Definition Int32 : M Z :=
  do c <- Peek1;
  if c =? 45 then
    run ConsumeN 1;
    do val <- Uint64;
    if 2147483648 <? val then report (ErrMsg (bs "int32: overflow")) 0
    else ret (wrap_signed 32 (- wrap_signed 32 val))
  else
    do val <- Uint64;
    if 2147483647 <? val then report (ErrMsg (bs "int32: overflow")) 0
    else ret (wrap_signed 32 val).

(** read/int.go:25-30, on a 64-bit platform *)
Definition Int : M Z := Int64.

(** skip/space.go:8-26 *)
Definition is_space (b : Z) : bool :=
  (b =? 9) || (b =? 10) || (b =? 11) || (b =? 12) || (b =? 13) || (b =? 32).
(** skip/space.go:8-26 *)
Definition Space : M Z :=
  scan (fun count b => if is_space b then Go (count + 1) else Stop) 0 0.

(** unicode.IsSpace of the Go library; skip/space.go:28-40 *)
Definition unicodeIsSpace (r : Z) : bool :=
  (9 <=? r) && (r <=? 13) || (r =? 0x20) || (r =? 0x85) || (r =? 0xA0) || (r =? 0x1680) ||
  (0x2000 <=? r) && (r <=? 0x200a) || (r =? 0x2028) || (r =? 0x2029) || (r =? 0x202f) || (r =? 0x205f) || (r =? 0x3000).

(** skip/space.go:28-40 *)
Fixpoint UnicodeSpace (fuel : nat) (count : Z) : M Z := fun s =>
  match fuel with
  | O => OutOfFuel
  | S fuel =>
    match s_err s with
    | Some _ => Ok count s
    | None =>
      let '((r, n), s) := PeekRune s in
      if unicodeIsSpace r then (run ConsumeN (Z.to_nat n); UnicodeSpace fuel (count + n)) s
      else Ok count s
    end
  end.

(** read/range.go:8-18.  A *unicode.RangeTable is the predicate unicode.Is(table, _). *)
Definition table := Z -> bool.
(** read/range.go:8-18 *)
Fixpoint UnicodeRange (fuel : nat) (space : list Z) (t : table) : M (list Z) := fun s =>
  match fuel with
  | O => OutOfFuel
  | S fuel =>
    let '((r, n), s) := PeekRune s in
    if t r then (run ConsumeN (Z.to_nat n); UnicodeRange fuel (space ++ [r]) t) s
    else Ok space s
  end.

(** read/range.go:33-39: the loop over [includes]; its [continue] only continues this inner loop. *)
Fixpoint includesLoop (space : list Z) (includes : list table) (r n : Z) : M (list Z) :=
  match includes with
  | [] => ret space
  | t :: l =>
    if t r then run ConsumeN (Z.to_nat n); includesLoop (space ++ [r]) l r n
    else includesLoop space l r n
  end.

(** read/range.go:20-42 *)
Fixpoint UnicodeRanges (fuel : nat) (space : list Z) (includes excludes : list table) : M (list Z) := fun s =>
  match fuel with
  | O => OutOfFuel
  | S fuel =>
    let '((r, n), s) := PeekRune s in
    if existsb (fun t : table => t r) excludes then Ok space s
    else match includes with
    | [] => (run ConsumeN (Z.to_nat n); UnicodeRanges fuel (space ++ [r]) includes excludes) s
    | _ => includesLoop space includes r n s
    end
  end.

(** skip/range.go:8-19 *)
Fixpoint SkipUnicodeRange (fuel : nat) (count : Z) (t : table) : M Z := fun s =>
  match fuel with
  | O => OutOfFuel
  | S fuel =>
    let '((r, n), s) := PeekRune s in
    if t r then (run ConsumeN (Z.to_nat n); SkipUnicodeRange fuel (count + n) t) s
    else Ok count s
  end.

(** skip/range.go:30-36 *)
Fixpoint skipIncludesLoop (count : Z) (includes : list table) (r n : Z) : M Z :=
  match includes with
  | [] => ret count
  | t :: l =>
    if t r then run ConsumeN (Z.to_nat n); skipIncludesLoop (count + n) l r n
    else skipIncludesLoop count l r n
  end.

(** skip/range.go:21-39: the loop never makes a second round. *)
Definition SkipUnicodeRanges (includes excludes : list table) : M Z := fun s =>
  let '((r, n), s) := PeekRune s in
  if existsb (fun t : table => t r) excludes then Ok 0 s
  else skipIncludesLoop 0 includes r n s.

(** * The Pratt parser, parse.go:11-49 *)
Section Parser.
  (** Tokens and values of a lexer.  A token may call back Parse with another precedence. *)
  Variables (V P I : Type).
  Variable PrefixToken : M (option P).
  Variable InfixToken : M (option I * Z).
  Variable PrefixParse : (Z -> M (option V)) -> P -> M (option V).
  Variable InfixParse : (Z -> M (option V)) -> I -> option V -> M (option V).

  (** parse.go:32-47, given Parse for the nested calls.  [None] is the nil interface. *)
  Fixpoint parseLoop (rec : Z -> M (option V)) (fuel : nat) (precedence : Z) (lft : option V) : M (option V) := fun s =>
    match fuel with
    | O => OutOfFuel
    | S fuel =>
      match s_err s with
      | Some _ => Ok lft s
      | None =>
        (do p <- InfixToken;
         match fst p with
         | None => ret lft
         | Some token =>
           if snd p <=? precedence then ret lft
           else do lft <- InfixParse rec token lft; parseLoop rec fuel precedence lft
         end) s
      end
    end.

  (** parse.go:23-49.  [fuel] limits the depth of nested calls and the rounds of the loop. *)
  Fixpoint Parse (fuel : nat) (precedence : Z) : M (option V) :=
    match fuel with
    | O => fun _ => OutOfFuel
    | S fuel =>
      do token <- PrefixToken;
      match token with
      | None => report (ErrMsg (bs "can not parse")) None
      | Some token =>
        do lft <- PrefixParse (Parse fuel) token;
        parseLoop (Parse fuel) fuel precedence lft
      end
    end.

  (** parse.go:11-21 *)
  Definition ParseString (fuel : nat) (input : bytes) : res (option V * option err) :=
    (do lft <- Parse fuel 0;
     fun src => match Error src with
       | Some EOF => Ok (lft, None) src
       | Some e => Ok (None, Some e) src
       | None => Ok (lft, None) src
       end) (NewSourceString input).
End Parser.

(** * The arithmetic lexer of parse/example/expr/parse_test.go *)
Inductive exprInfix := Plus | Minus | Multiply.

(** parse_test.go:61-72 *)
Definition exprInfixToken : M (option exprInfix * Z) :=
  do c <- Peek1;
  ret (if c =? 43 then (Some Plus, 3) else if c =? 45 then (Some Minus, 3)
       else if c =? 42 then (Some Multiply, 4) else (None, 0)).

(** parse_test.go:74-76 *)
Definition exprPrefixToken : M (option unit) := ret (Some tt).

(** parse_test.go:81-83 *)
Definition exprPrefixParse (rec : Z -> M (option Z)) (t : unit) : M (option Z) :=
  do v <- Int; ret (Some v).

(** The type assertion x.(int), which panics on nil. parse_test.go:88-113. *)
Definition asInt (x : option Z) : M Z := fun s => match x with Some v => Ok v s | None => Panic end.

(** parse_test.go:88-93, 98-103, 108-113 *)
Definition exprInfixParse (rec : Z -> M (option Z)) (t : exprInfix) (lft : option Z) : M (option Z) :=
  do leftValue <- asInt lft;
  run ConsumeN 1;
  do r <- rec (match t with Plus | Minus => 3 | Multiply => 4 end);
  do rightValue <- asInt r;
  ret (Some (wrap_signed 64 (match t with
    | Plus => leftValue + rightValue
    | Minus => leftValue - rightValue
    | Multiply => leftValue * rightValue
    end))).

(** parse_test.go:61-113: parse.Parse with that lexer *)
Definition exprParse := Parse Z unit exprInfix exprPrefixToken exprInfixToken exprPrefixParse exprInfixParse.
(** parse.String with that lexer; parse_test.go:61-113 *)
Definition exprString := ParseString Z unit exprInfix exprPrefixToken exprInfixToken exprPrefixParse exprInfixParse.
