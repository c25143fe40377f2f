(** Model of msgfmt/*.go: Sprintf, Fprintf, the template parser, the compiled formatters and their cache. *)
From Verif Require Import Base JsonStrSpec JsonStrModel ParseModel.

(** A value of a key/value list, by what the code can find out about it: a string, a []byte, a time.Time, a
    value with a String method of type number [ty] ([text]: what String() gives, None: it panics), or a value
    of any other type number [ty]. msgfmt.go:19, formatter.go:33-56. *)
Inductive value :=
| VStr (s : bytes)
| VByt (b : bytes)
| VTime (t : Z)
| VStringer (ty : Z) (text : option bytes)
| VAny (ty x : Z).

(** == on strings; formatter.go:80, custom.go:17-29 *)
Definition bytes_eqb (a b : bytes) : bool := if list_eq_dec Z.eq_dec a b then true else false.

(** unicode.Pattern_White_Space and unicode.Pattern_Syntax of the Go library, named in parse.go:123-126 *)
Definition inRange (r : Z) (p : Z * Z) : bool := (fst p <=? r) && (r <=? snd p).
(** The tables named in msgfmt/parse.go:123-126 *)
Definition Pattern_White_Space : table := fun r => existsb (inRange r)
  [(0x9, 0xd); (0x20, 0x20); (0x85, 0x85); (0x200e, 0x200f); (0x2028, 0x2029)].
Definition Pattern_Syntax : table := fun r => existsb (inRange r)
  [(0x21, 0x2f); (0x3a, 0x40); (0x5b, 0x5e); (0x60, 0x60); (0x7b, 0x7e); (0xa1, 0xa7); (0xa9, 0xa9); (0xab, 0xac);
   (0xae, 0xae); (0xb0, 0xb1); (0xb6, 0xb6); (0xbb, 0xbb); (0xbf, 0xbf); (0xd7, 0xd7); (0xf7, 0xf7);
   (0x2010, 0x2027); (0x2030, 0x203e); (0x2041, 0x2053); (0x2055, 0x205e); (0x2190, 0x245f); (0x2500, 0x2775);
   (0x2794, 0x2bff); (0x2e00, 0x2e7f); (0x3001, 0x3003); (0x3008, 0x3020); (0x3030, 0x3030); (0xfd3e, 0xfd3f);
   (0xfe45, 0xfe46)].
(** parse.go:123-126 *)
Definition patternWhiteSpaceAndPatternSyntax : list table := [Pattern_White_Space; Pattern_Syntax].

(** * formatter_bytes.go *)

(** formatter_bytes.go:17-114, as a function of a byte below 128 *)
Definition fmtSafeSet (b : Z) : bool := (32 <=? b) && (b <=? 127) && negb (b =? 92) && negb (b =? 124).

(** formatter_bytes.go:116 and 142, 163: the two hexadecimal digits of b *)
Definition hexByte (b : Z) : bytes := [hexAt (Z.shiftr b 4); hexAt (Z.land b 15)].

(** formatter_bytes.go:140-166: the loop, returning space and start.  [s] is the whole slice, [rest] = s[i:]. *)
Fixpoint fmtSlowLoop (s : bytes) (space : bytes) (start i : Z) (rest : bytes) : bytes * Z :=
  match rest with
  | [] => (space, start)
  | b :: r =>
    if 128 <=? b then fmtSlowLoop s (space ++ [92; 120] ++ hexByte b) (i + 1) (i + 1) r
    else if fmtSafeSet b then fmtSlowLoop s space start (i + 1) r
    else
      let space := if start <? i then space ++ slice s start i else space in
      let space := space ++
        (if (b =? 92) || (b =? 34) then [92; b]
         else if b =? 10 then bs "\n" else if b =? 13 then bs "\r" else if b =? 9 then bs "\t"
         else [92; 120] ++ hexByte b) in
      fmtSlowLoop s space (i + 1) (i + 1) r
  end.

(** formatter_bytes.go:135-171 *)
Definition fmtWriteBytesSlowPath (space s : bytes) : bytes :=
  let '(space, start) := fmtSlowLoop s space 0 0 s in
  if start <? lenZ s then space ++ slice s start (lenZ s) else space.

(** formatter_bytes.go:118-133; fastLoop (the same loop of jsonfmt) gives the last value of i. *)
Definition fmtWriteBytes (space s : bytes) : bytes :=
  let '(space, i) := fastLoop (fun c => (c <? 128) && fmtSafeSet c) space 0 0 s in
  if i =? lenZ s - 1 then space else fmtWriteBytesSlowPath space (slice s i (lenZ s)).

(** msgfmt.go:41-45: the two places fprintln writes to *)
Inductive destination := Writer | StandardOutput.

Section Msgfmt.
  (** Outside of this file: jsonfmt.EncoderOf for the type of a value (the area of Json*Model.v; [None]: it
      panics or does not return), giving the bytes Encode appends for a value ([None]: it panics); the methods
      String and AppendFormat of time.Time; strings.TrimSpace; the text of the argument list printed by an
      invalid format; the text of a recovered panic. *)
  Variable encoderOf : Z -> option (value -> option bytes).
  Variable timeString : Z -> bytes.
  Variable timeFormat : bytes -> Z -> bytes.
  Variable trimSpace : bytes -> bytes.
  Variable argsText : list value -> bytes.
  Variable panicText : bytes.

  (** The Formatter implementations: formatter_fixed.go, formatter_str.go, formatter_bytes.go:5, formatter_stringer.go,
      formatter_json.go, custom.go:55, formatter.go:15 (Formatters), formatter_invalid.go. *)
  Inductive formatter :=
  | Fixed (s : bytes)
  | StrF (idx : Z)
  | BytesF (idx : Z)
  | StringerF (idx : Z)
  | JsonF (idx : Z) (encoder : value -> option bytes)
  | GoTimeF (idx : Z) (layout : bytes)
  | Many (l : list formatter)
  | Invalid (msg : bytes).

  (** kv[i]; an index out of range panics. formatter_str.go:6, formatter_bytes.go:8, formatter_stringer.go:8, custom.go:61. *)
  Definition at_ (kv : list value) (i : Z) : option value := nth_error kv (Z.to_nat i).

  (** The dynamic call v.(fmt.Stringer).String() of formatter_stringer.go:8; also time.Time has String. *)
  Definition stringOf (v : value) : option bytes :=
    match v with
    | VStringer _ t => t
    | VTime t => Some (timeString t)
    | _ => None
    end.

  (** The Format methods: formatter_fixed.go:5, formatter_str.go:5, formatter_bytes.go:7, formatter_stringer.go:7,
      formatter_json.go:13, custom.go:60, formatter.go:25-30, formatter_invalid.go:10.  [None]: panic. *)
  Fixpoint Format (f : formatter) (space : bytes) (kv : list value) {struct f} : option bytes :=
    match f with
    | Fixed s => Some (space ++ s)
    | StrF i => obind (at_ kv i) (fun v => match v with VStr s => Some (space ++ s) | _ => None end)
    | BytesF i => obind (at_ kv i) (fun v => match v with VByt s => Some (fmtWriteBytes space s) | _ => None end)
    | StringerF i => obind (at_ kv i) (fun v => obind (stringOf v) (fun s => Some (space ++ s)))
    | JsonF i encoder => obind (at_ kv i) (fun v => obind (encoder v) (fun s => Some (space ++ s)))
    | GoTimeF i layout => obind (at_ kv i) (fun v => match v with VTime t => Some (space ++ timeFormat layout t) | _ => None end)
    | Many l => (fix go (l : list formatter) (space : bytes) : option bytes :=
        match l with
        | [] => Some space
        | g :: l => obind (Format g space kv) (go l)
        end) l space
    | Invalid msg => Some (space ++ bs "%! (INVALID FORMAT) " ++ msg ++ bs "%! (FORMAT ARGS) " ++ argsText kv)
    end.

  (** formatter.go:78-86.  Outer [None]: panic at sample[i].(string); -1: not found.  [i]: index of the head. *)
  Fixpoint findFrom (i : Z) (sample : list value) (target : bytes) : option Z :=
    match sample with
    | [] => Some (-1)
    | k :: r =>
      match k with
      | VStr key =>
        if bytes_eqb key target then Some (i + 1)
        else match r with [] => Some (-1) | _ :: r => findFrom (i + 2) r target end
      | _ => None
      end
    end.
  (** formatter.go:78-86 *)
  Definition findValueIndex (sample : list value) (target : bytes) : option Z := findFrom 0 sample target.

  (** A panic in the parser; as in formatter.go:79, 43 *)
  Definition panic {A} : M A := fun _ => Panic.
  (** formatter.go:33-65: a panic of what they call *)
  Definition orPanic {A} (o : option A) : M A := match o with Some a => ret a | None => panic end.

  (** formatter.go:33-56 *)
  Definition parseVariable (sample : list value) (id : bytes) : M (option formatter) :=
    do idx <- orPanic (findValueIndex sample id);
    if idx =? -1 then report (ErrMsg (id ++ bs " not found in args")) None
    else
      do sampleValue <- orPanic (at_ sample idx);
      match sampleValue with
      | VStringer _ _ | VTime _ => ret (Some (StringerF idx))
      | VStr _ => ret (Some (StrF idx))
      | VByt _ => ret (Some (BytesF idx))
      | VAny ty _ => do encoder <- orPanic (encoderOf ty); ret (Some (JsonF idx encoder))
      end.

  (** custom.go:34-53.  [None]: panic; [inr]: an error. *)
  Definition RFC3339 : bytes := bs "2006-01-02T15:04:05Z07:00".
  (** custom.go:34-53.  [None]: panic; [inr]: an error. *)
  Definition GoTimeFormat_FormatterOf (targetKey : bytes) (formatArgs : list bytes) (sample : list value)
    : option (formatter + err) :=
    let arg0 := match formatArgs with [] => RFC3339 | a :: _ => a end in
    obind (findValueIndex sample targetKey) (fun idx =>
    if idx =? -1 then Some (inr (ErrMsg (targetKey ++ bs " not found in properties")))
    else obind (at_ sample idx) (fun v =>
      match v with
      | VTime _ => Some (inl (GoTimeF idx (trimSpace arg0)))
      | _ => Some (inr (ErrMsg (targetKey ++ bs " is not time.Time")))
      end)).

  (** custom.go:9-11, 17-29.  The map Formats is taken as it is initialised; a panic is recovered. *)
  Definition newFuncFormatter (key funcName : bytes) (funcArgs : list bytes) (sample : list value) : formatter + err :=
    if bytes_eqb funcName (bs "goTime") then
      match GoTimeFormat_FormatterOf key funcArgs sample with
      | Some r => r
      | None => inr (ErrMsg (bs "newFormatter panic: " ++ panicText))
      end
    else inr (ErrMsg (bs "format " ++ funcName ++ bs " is not supported")).

  (** formatter.go:57-65 *)
  Definition parseFunc (sample : list value) (id funcName : bytes) (funcArgs : list bytes) : M (option formatter) :=
    match newFuncFormatter id funcName funcArgs sample with
    | inr e => report e None
    | inl f => ret (Some f)
    end.

  (** * parse.go *)
  (** src.Peek()[0] *)
  Definition Peek0 : M Z := Peek1.

  (** parse.go:176-179 *)
  Record funcInvocation := mkInvocation { fi_name : bytes; fi_args : list bytes }.

  (** parse.go:184-196, with a limit on the rounds *)
  Fixpoint funcArgsLoop (fuel : nat) (name : bytes) (args : list bytes) : M (option funcInvocation) :=
    match fuel with
    | O => fun _ => OutOfFuel
    | S fuel' =>
      run UnicodeSpace fuel 0;
      do c <- Peek1;
      if c =? 44 then
        run Consume1 44;
        do a <- AnyExcept2 [] 44 125;
        funcArgsLoop fuel' name (args ++ [a])
      else if c =? 125 then ret (Some (mkInvocation name args))
      else report (ErrMsg (bs "expect , or }, but found " ++ [c])) (Some (mkInvocation name args))
    end.

  (** parse.go:181-197 *)
  Definition funcNameParse (fuel : nat) : M (option funcInvocation) :=
    do name <- AnyExcept2 [] 44 125;
    funcArgsLoop fuel name [].

  (** parse.go:154-166 *)
  Definition formatterPrefixToken (fuel : nat) : M (option unit) :=
    run UnicodeSpace fuel 0;
    do str <- (fun s => let '(buf, _, s') := PeekN 6 s in Ok buf s');
    if bytes_eqb str (bs "select") then panic
    else if bytes_eqb str (bs "plural") then panic
    else ret (Some tt).

  (** parse.Parse with the formatterLexer (parse.go:144-170) *)
  Definition parseFormatter (fuel : nat) : Z -> M (option funcInvocation) :=
    Parse funcInvocation unit Empty_set (formatterPrefixToken fuel) (ret (None, 0))
      (fun _ _ => funcNameParse fuel) (fun _ _ _ => ret None) fuel.

  (** What the tokens of variableLexer return: a string or a Formatter. msgfmt/parse.go:128-141. *)
  Inductive object := OId (id : bytes) | OFormatter (f : formatter).

  (** parse.go:102-105 *)
  Definition variablePrefixToken (fuel : nat) : M (option unit) :=
    run UnicodeSpace fuel 0; ret (Some tt).

  (** parse.go:107-118 *)
  Definition variableInfixToken (fuel : nat) : M (option unit * Z) :=
    run UnicodeSpace fuel 0;
    do c <- Peek0;
    if c =? 44 then ret (Some tt, 1)
    else if c =? 125 then ret (None, 0)
    else report (ErrMsg (bs "expect , or }, but found " ++ [c])) (None, 0).

  (** parse.go:128-131; string(runes) encodes the runes. *)
  Definition idParse (fuel : nat) : M (option object) :=
    do runes <- UnicodeRanges fuel [] [] patternWhiteSpaceAndPatternSyntax;
    ret (Some (OId (flat_map utf8 runes))).

  (** parse.go:137-141 *)
  Definition commaParse (fuel : nat) (sample : list value) (lft : option object) : M (option object) :=
    run Consume1 44;
    do fi <- parseFormatter fuel 0;
    match fi with
    | None => panic
    | Some fi =>
      match lft with
      | Some (OId id) =>
        do f <- parseFunc sample id (fi_name fi) (fi_args fi);
        ret (match f with Some f => Some (OFormatter f) | None => None end)
      | _ => panic
      end
    end.

  (** parse.Parse with the variableLexer (parse.go:90-118) *)
  Definition parseVar (fuel : nat) (sample : list value) : Z -> M (option object) :=
    Parse object unit unit (variablePrefixToken fuel) (variableInfixToken fuel)
      (fun _ _ => idParse fuel) (fun _ _ lft => commaParse fuel sample lft) fuel.

  (** parse.go:65-78 *)
  Definition leftCurlyParse (fuel : nat) (sample : list value) : M (option formatter) :=
    run Consume1 123;
    do obj <- parseVar fuel sample 0;
    fun s =>
      match s_err s with
      | Some _ => Ok None s
      | None =>
        (do f <- match obj with
           | Some (OId id) => parseVariable sample id
           | Some (OFormatter f) => ret (Some f)
           | None => ret None
           end;
         match f with
         | None => panic
         | Some f => run Consume1 125; ret (Some f)
         end) s
      end.

  (** parse.go:84-86, formatter.go:66-68 *)
  Definition literalParse : M (option formatter) :=
    do t <- AnyExcept1 [] 123; ret (Some (Fixed t)).

  (** parse.go:48-55; true: leftCurly *)
  Definition lexerPrefixToken : M (option bool) :=
    do c <- Peek0; ret (Some (c =? 123)).

  (** parse.Parse with the lexer (parse.go:48-59) *)
  Definition parseSegment (fuel : nat) (sample : list value) : Z -> M (option formatter) :=
    Parse formatter bool Empty_set lexerPrefixToken (ret (None, 0))
      (fun _ curly => if curly then leftCurlyParse fuel sample else literalParse) (fun _ _ _ => ret None) fuel.

  (** formatter.go:19-23, 69-75; rgt.(Formatter) panics on nil. *)
  Definition merge (lft : formatter) (rgt : option formatter) : M (option formatter) :=
    match rgt with
    | None => panic
    | Some r => ret (Some (match lft with Many l => Many (l ++ [r]) | _ => Many [lft; r] end))
    end.

  (** parse.go:36-46, with a limit on the rounds; the inner parsers get [inner]. *)
  Fixpoint lexerLoop (fuel inner : nat) (sample : list value) (lft : option formatter) : M (option formatter) := fun s =>
    match fuel with
    | O => OutOfFuel
    | S fuel =>
      match s_err s with
      | Some _ => Ok lft s
      | None =>
        (do rgt <- parseSegment inner sample 0;
         do l <- match lft with None => ret rgt | Some l => merge l rgt end;
         lexerLoop fuel inner sample l) s
      end
    end.

  (** err.Error(); formatter.go:88-99 *)
  Definition errText (e : err) : bytes :=
    match e with EOF => bs "EOF" | ErrReader _ => [] | ErrMsg m => m end.

  (** formatter.go:88-99 *)
  Definition compile (fuel : nat) (format : bytes) (sample : list value) : res formatter :=
    (do f <- lexerLoop fuel fuel sample None;
     fun src => match Error src with
       | Some EOF => match f with Some f => Ok f src | None => Panic end
       | Some e => Ok (Invalid (errText e)) src
       | None => Ok (Invalid (bs "format not parsed completely")) src
       end) (NewSourceString format).

  (** * msgfmt.go *)
  (** formatterCache, a map from formats to formatters; the latest binding is first. msgfmt.go:70-80. *)
  Definition cache := list (bytes * formatter).
  (** msgfmt.go:73 *)
  Fixpoint load (c : cache) (k : bytes) : option formatter :=
    match c with
    | [] => None
    | (k', f) :: c => if bytes_eqb k' k then Some f else load c k
    end.

  (** Outcome of a call: a result, a panic, or no result within the fuel. msgfmt.go:19-80. *)
  Inductive outcome (A : Type) := Returns (a : A) | Panics | Unfinished.
  Arguments Returns {A}. Arguments Panics {A}. Arguments Unfinished {A}.

  (** msgfmt.go:72-80.  Also the cache after the call (unchanged by a panic in compile). *)
  Definition FormatterOf (fuel : nat) (c : cache) (format : bytes) (sample : list value) : outcome formatter * cache :=
    match load c format with
    | Some f => (Returns f, c)
    | None =>
      match compile fuel format sample with
      | Ok f _ => (Returns f, (format, f) :: c)
      | Panic => (Panics, c)
      | OutOfFuel => (Unfinished, c)
      end
    end.

  (** msgfmt.go:19-24 *)
  Definition Sprintf (fuel : nat) (c : cache) (format : bytes) (kv : list value) : outcome bytes * cache :=
    match FormatterOf fuel c format kv with
    | (Returns f, c') => (match Format f [] kv with Some t => Returns t | None => Panics end, c')
    | (Panics, c') => (Panics, c')
    | (Unfinished, c') => (Unfinished, c')
    end.

  (** msgfmt.go:61-68: what is handed to writer.Write, in one call.  The buffer taken from the pool is cut to
      length 0, whatever it contains. *)
  Definition fprintf (fuel : nat) (c : cache) (pooled : bytes) (format : bytes) (kv : list value) : outcome bytes * cache :=
    match FormatterOf fuel c format kv with
    | (Returns f, c') => (match Format f (firstn 0 pooled) kv with Some t => Returns t | None => Panics end, c')
    | (Panics, c') => (Panics, c')
    | (Unfinished, c') => (Unfinished, c')
    end.

  (** msgfmt.go:38-47: where the text goes, and the text.  [sliceOf]: the []interface{} holding the values. *)
  Definition fprintln (fuel : nat) (c : cache) (pooled : bytes) (sliceOf : list value -> value) (values : list value)
    : destination * (outcome bytes * cache) :=
    match values with
    | [] => (StandardOutput, (Returns [10], c))
    | [v] => (Writer, fprintf fuel c pooled (bs "{single_value}" ++ [10]) [VStr (bs "single_value"); v])
    | _ => (Writer, fprintf fuel c pooled (bs "{multiple_values}" ++ [10]) [VStr (bs "multiple_values"); sliceOf values])
    end.
End Msgfmt.
