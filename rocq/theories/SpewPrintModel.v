(** Model of the printing functions of test/go-spew/spew (spew.go, config.go) and of the formatter for verbs other than v (format.go:47-87, 371-398).
    Citations without a directory are to test/go-spew/spew.  What package fmt does with a format is modelled as far as the formatter sees it or calls it:
    text, flags, widths, precisions, also by [*], verbs, missing and extra operands; explicit argument indexes like %[1]d are left out.  What fmt writes
    for one operand, and what the formatter writes for %v (SpewModel), are parameters. *)
From Verif Require Import Base JsonStrSpec ParseModel.
Open Scope Z_scope.
Open Scope list_scope.

(** ** Package fmt, called at spew.go:33, 45, 57, 68, 80, 92, 104, 115, 126, 137, config.go:116, 128, 140, 151, 163, 175, 187, 198, 209, 220 and format.go:377;
    not code of the repository *)
(** What a fmt.State answers: Flag, Width, Precision (format.go:51, 69, 74, 78) *)
Record state := mkState { minus : bool; plus : bool; sharp : bool; space : bool; zero : bool; wid : option Z; prec : option Z }.
(** fmt's clearflags (format.go:377) *)
Definition noFlags : state := mkState false false false false false None None.
(** fmt's tooLarge (format.go:377) *)
Definition tooLarge (n : Z) : bool := (1000000 <? n) || (n <? -1000000).
(** A digit in a format (format.go:377) *)
Definition digit (c : Z) : bool := (48 <=? c) && (c <=? 57).
(** fmt's parsenum from [num] on (format.go:377): the number, None if there is none, and the rest of the format; after a number that is too large nothing *)
Fixpoint parsenum (num : option Z) (s : bytes) : option Z * bytes :=
  match s with
  | [] => (num, [])
  | c :: r =>
    if digit c then
      let n := match num with None => 0 | Some n => n end in
      if tooLarge n then (None, []) else parsenum (Some (n * 10 + (c - 48))) r
    else (num, s)
  end.
(** The flags at the front of a directive (format.go:377) *)
Fixpoint parseFlags (st : state) (s : bytes) : state * bytes :=
  match s with
  | [] => (st, [])
  | c :: r =>
    let 'mkState m p h sp z w pr := st in
    if c =? 35 then parseFlags (mkState m p true sp z w pr) r
    else if c =? 48 then parseFlags (mkState m p h sp (negb m) w pr) r
    else if c =? 43 then parseFlags (mkState m true h sp z w pr) r
    else if c =? 45 then parseFlags (mkState true p h sp false w pr) r
    else if c =? 32 then parseFlags (mkState m p h true z w pr) r
    else (st, s)
  end.
(** The text up to the next % (format.go:377) *)
Fixpoint literal (s : bytes) : bytes * bytes :=
  match s with
  | [] => ([], [])
  | c :: r => if c =? 37 then ([], s) else let '(t, s') := literal r in (c :: t, s')
  end.

Section Printf.
  (** Operands; their value as a width or precision, None if they are no integers; what is written for an operand of a directive; what an operand too
      many is shown as (format.go:377) *)
  Variable A : Type.
  Variable asInt : A -> option Z.
  Variable printArg : state -> Z -> A -> bytes.
  Variable extra : A -> bytes.

  (** fmt's intFromArg (format.go:377): the number and the operands left *)
  Definition intFromArg (args : list A) : option Z * list A :=
    match args with
    | [] => (None, [])
    | a :: args => (match asInt a with Some n => if tooLarge n then None else Some n | None => None end, args)
    end.
  (** The width of a directive, and what is written if it is bad (format.go:377) *)
  Definition parseWidth (st : state) (s : bytes) (args : list A) : state * bytes * list A * bytes :=
    let 'mkState m p h sp z _ pr := st in
    match s with
    | 42 :: s =>
      let '(n, args) := intFromArg args in
      match n with
      | None => (mkState m p h sp z None pr, s, args, bs "%!(BADWIDTH)")
      | Some n => if n <? 0 then (mkState true p h sp false (Some (- n)) pr, s, args, []) else (mkState m p h sp z (Some n) pr, s, args, [])
      end
    | _ => let '(n, s) := parsenum None s in (mkState m p h sp z n pr, s, args, [])
    end.
  (** The precision of a directive (format.go:377) *)
  Definition parsePrec (st : state) (s : bytes) (args : list A) : state * bytes * list A * bytes :=
    let 'mkState m p h sp z w _ := st in
    match s with
    | 46 :: s =>
      match s with
      | 42 :: s =>
        let '(n, args) := intFromArg args in
        match n with
        | None => (mkState m p h sp z w None, s, args, bs "%!(BADPREC)")
        | Some n => if n <? 0 then (mkState m p h sp z w None, s, args, bs "%!(BADPREC)") else (mkState m p h sp z w (Some n), s, args, [])
        end
      | _ => let '(n, s) := parsenum None s in (mkState m p h sp z w (Some (match n with None => 0 | Some n => n end)), s, args, [])
      end
    | _ => (mkState m p h sp z w None, s, args, [])
    end.
  (** Operands that no directive takes (format.go:377) *)
  Definition extraText (args : list A) : bytes :=
    match args with
    | [] => []
    | a :: args => bs "%!(EXTRA " ++ extra a ++ flat_map (fun a => bs ", " ++ extra a) args ++ bs ")"
    end.
  (** fmt's doPrintf (format.go:377); the fuel is more than the length of the format *)
  Fixpoint formatLoop (fuel : nat) (s : bytes) (args : list A) : bytes :=
    match fuel with
    | O => []
    | S fuel =>
      let '(lit, s) := literal s in
      lit ++
      match s with
      | [] => extraText args
      | _ :: s =>
        let '(st, s) := parseFlags noFlags s in
        let '(st, s, args, badWidth) := parseWidth st s args in
        let '(st, s, args, badPrec) := parsePrec st s args in
        badWidth ++ badPrec ++
        match s with
        | [] => bs "%!(NOVERB)" ++ extraText args
        | _ :: _ =>
          let '(verb, w) := DecodeRune s in
          let s := skipn (Z.to_nat w) s in
          if verb =? 37 then bs "%" ++ formatLoop fuel s args
          else
            match args with
            | [] => bs "%!" ++ utf8 verb ++ bs "(MISSING)" ++ formatLoop fuel s []
            | a :: args => printArg st verb a ++ formatLoop fuel s args
            end
        end
      end
    end.
  (** fmt.Sprintf, and the text fmt.Fprintf and fmt.Printf write (format.go:377, spew.go:57, 92, 126) *)
  Definition doPrintf (format : bytes) (args : list A) : bytes := formatLoop (S (List.length format)) format args.

  (** fmt.Sprint: a space between operands neither of which is a string (spew.go:45, 80, 115) *)
  Variable isString : A -> bool.
  (** The operands after the first, given whether the one before is a string (spew.go:115) *)
  Fixpoint printRest (before : bool) (args : list A) : bytes :=
    match args with
    | [] => []
    | a :: args => (if before || isString a then [] else [32]) ++ printArg noFlags 118 a ++ printRest (isString a) args
    end.
  (** spew.go:115 *)
  Definition doPrint (args : list A) : bytes :=
    match args with [] => [] | a :: args => printArg noFlags 118 a ++ printRest (isString a) args end.
  (** fmt.Sprintln: a space between any operands (spew.go:68, 104, 137) *)
  Definition doPrintln (args : list A) : bytes :=
    match args with [] => [] | a :: args => printArg noFlags 118 a ++ flat_map (fun a => [32] ++ printArg noFlags 118 a) args end ++ [10].
End Printf.

(** ** The format that is handed on *)
(** f.fs.Flag: format.go:51, 69 *)
Definition Flag (st : state) (flag : Z) : bool :=
  if flag =? 45 then minus st else if flag =? 43 then plus st else if flag =? 35 then sharp st else if flag =? 32 then space st
  else if flag =? 48 then zero st else false.
(** format.go:28 *)
Definition supportedFlags : bytes := bs "0-+# ".
(** format.go:68-72: what is written to the buffer, by one call after the other *)
Definition flagWrites (st : state) : list bytes := flat_map (fun flag => if Flag st flag then [[flag]] else []) supportedFlags.

Section Spew.
  (** strconv.Itoa: format.go:75, 80 *)
  Variable itoa : Z -> bytes.
  (** format.go:68-83 *)
  Definition origWrites (st : state) (verb : Z) : list bytes :=
    flagWrites st
    ++ match wid st with Some width => [itoa width] | None => [] end
    ++ match prec st with Some precision => [bs "."; itoa precision] | None => [] end
    ++ [utf8 verb].
  (** format.go:65-87 with a buffer that nobody else writes to; with a shared one below *)
  Definition constructOrigFormat (st : state) (verb : Z) : bytes := bs "%" ++ List.concat (origWrites st verb).
  (** format.go:47-60 *)
  Definition buildDefaultFormat (st : state) : bytes := bs "%" ++ List.concat (flagWrites st) ++ utf8 118.

  (** Values.  What fmt does with them as operands, see above.  What fmt writes for %T and %p, which it does not leave to the formatter: here the
      type and the address of the formatter itself.  What the formatter writes for %v with and without # and + (format.go:379-389). *)
  Variable V : Type.
  Variable vInt : V -> option Z.
  Variable vPrint : state -> Z -> V -> bytes.
  Variable vExtra : V -> bytes.
  Variable vString : V -> bool.
  Variable fmtS : state -> bytes -> bytes.
  Variable fmtPointer : state -> V -> bytes.
  Variable spewV : bool -> bool -> V -> bytes.

  (** format.go:371-390 *)
  Definition Format (st : state) (verb : Z) (value : V) : bytes :=
    if negb (verb =? 118) then doPrintf V vInt vPrint vExtra (constructOrigFormat st verb) [value]
    else spewV (sharp st) (plus st) value.

  (** What fmt does with a formatter as an operand (format.go:394-398): it is no integer and no string *)
  Definition formatter := V.
  (** format.go:371, called by fmt unless the verb is T or p *)
  Definition fPrint (st : state) (verb : Z) (f : formatter) : bytes :=
    if verb =? 84 then fmtS st (bs "*spew.formatState") else if verb =? 112 then fmtPointer st f else Format st verb f.
  (** format.go:34, 371 *)
  Definition fExtra (f : formatter) : bytes := bs "*spew.formatState=" ++ fPrint noFlags 118 f.
  (** format.go:34 *)
  Definition fInt (f : formatter) : option Z := None.
  (** format.go:34 *)
  Definition fString (f : formatter) : bool := false.
  (** format.go:394-398, 417-419, config.go:240-242 *)
  Definition newFormatter (v : V) : formatter := v.
  (** spew.go:142-148, config.go:288-294 *)
  Definition convertArgs (args : list V) : list formatter := map newFormatter args.
  (** spew.go:32-34, 56-58, 91-93, 125-127, config.go:115-117, 139-141, 174-176, 208-210: the text returned or written *)
  Definition Sprintf (format : bytes) (a : list V) : bytes := doPrintf formatter fInt fPrint fExtra format (convertArgs a).
  (** spew.go:44-46, 79-81, 114-116, config.go:127-129, 162-164, 197-199 *)
  Definition Sprint (a : list V) : bytes := doPrint formatter fPrint fString (convertArgs a).
  (** spew.go:67-69, 103-105, 136-138, config.go:150-152, 186-188, 219-221 *)
  Definition Sprintln (a : list V) : bytes := doPrintln formatter fPrint (convertArgs a).
End Spew.

(** ** The buffer *)
(** bytes.NewBuffer(percentBytes), format.go:66, uses the array of the package variable percentBytes (common.go:57) as long as there is room in it: [Shared n],
    the first [n] bytes of it; then an array of its own *)
Inductive buffer := Shared (n : nat) | Own (b : bytes).
(** A call of constructOrigFormat: the buffer, the writes to come (format.go:68-83), and the format that was returned (85) *)
Record call := mkCall { buf : buffer; todo : list bytes; result : option bytes }.
(** format.go:66 *)
Definition newCall (writes : list bytes) : call := mkCall (Shared 1) writes None.
(** The array from index n on is overwritten (format.go:70, 75, 79, 80, 83) *)
Definition overwrite (a : bytes) (n : nat) (t : bytes) : bytes := firstn n a ++ t ++ skipn (n + List.length t) a.
(** The bytes in the buffer (format.go:85) *)
Definition contents (a : bytes) (b : buffer) : bytes := match b with Shared n => firstn n a | Own t => t end.
(** One call of WriteRune, WriteString or Write (format.go:70, 75, 79, 80, 83), or of String (85), given the array of percentBytes *)
Definition stepCall (a : bytes) (c : call) : bytes * call :=
  match todo c with
  | [] => (a, mkCall (buf c) [] (match result c with None => Some (contents a (buf c)) | r => r end))
  | t :: todo =>
    match buf c with
    | Shared n =>
      if (n + List.length t <=? List.length a)%nat then (overwrite a n t, mkCall (Shared (n + List.length t)) todo (result c))
      else (a, mkCall (Own (firstn n a ++ t)) todo (result c))
    | Own b => (a, mkCall (Own (b ++ t)) todo (result c))
    end
  end.
(** What goroutines do: number i begins a call (format.go:66), or it goes on *)
Inductive event := Begin (i : nat) (writes : list bytes) | Continue (i : nat).
(** The array and the calls of the goroutines (format.go:65) *)
Definition world := (bytes * (nat -> option call))%type.
(** format.go:65-87 *)
Definition setCall (calls : nat -> option call) (i : nat) (c : call) : nat -> option call := fun j => if (j =? i)%nat then Some c else calls j.
(** format.go:65-87; a goroutine that has no call does nothing *)
Definition step (w : world) (e : event) : world :=
  let '(a, calls) := w in
  match e with
  | Begin i writes => (a, setCall calls i (newCall writes))
  | Continue i => match calls i with None => w | Some c => let '(a', c') := stepCall a c in (a', setCall calls i c') end
  end.
(** format.go:65-87 *)
Definition runCalls (w : world) (es : list event) : world := fold_left step es w.
