(** Model of NameByIndex.ListFiles, countlog/output/rotation/name_by_index.go, with fmt.Sscanf as far as it is used there: formats of literal characters that are
    not white space and the directive %d without a width.  Citations without a directory are to countlog/output/rotation. *)
From Verif Require Import Base.

(** fmt's SkipSpace (name_by_index.go:29); names of ASCII characters.  A line feed is an error; here it stays, so that no digit follows, an error too *)
Fixpoint skipSpace (s : bytes) : bytes :=
  match s with
  | c :: r => if (c =? 9) || (c =? 11) || (c =? 12) || (c =? 13) || (c =? 32) then skipSpace r else s
  | [] => []
  end.
(** fmt's accept of digits in scanNumber (name_by_index.go:29): the digits, the rest *)
Fixpoint takeDigits (s : bytes) : bytes * bytes :=
  match s with
  | c :: r => if (48 <=? c) && (c <=? 57) then let (d, r) := takeDigits r in (c :: d, r) else ([], s)
  | [] => ([], [])
  end.
(** strconv.ParseInt of digits, without its range (name_by_index.go:29) *)
Definition parse10 (ds : bytes) : Z := fold_left (fun v c => v * 10 + (c - 48)) ds 0.
(** fmt's accept of a sign in scanInt (name_by_index.go:29): whether it is a minus, what follows *)
Definition acceptSign (s : bytes) : bool * bytes := match s with 43 :: r => (false, r) | 45 :: r => (true, r) | _ => (false, s) end.
(** fmt's scanInt for %d and [*]int (name_by_index.go:28-29) on a machine of 64 bits: what follows the number, the number; None: an error *)
Definition scanInt (s : bytes) : option (bytes * Z) :=
  let (neg, s) := acceptSign s in
  match takeDigits s with
  | ([], _) => None
  | (ds, rest) =>
    let v := if neg then - parse10 ds else parse10 ds in
    if (- 2 ^ 63 <=? v) && (v <? 2 ^ 63) then Some (rest, v) else None
  end.
(** fmt.Sscanf(name, format, &idx) (name_by_index.go:29): the number of operands that were stored, and idx; None: an error.
    What is left of the name does not matter.  Other directives are not modelled, they are errors here *)
Fixpoint sscanf (format input : bytes) (n : nat) (idx : Z) : option (nat * Z) :=
  match format with
  | [] => Some (n, idx)
  | 37 :: format =>
    match format with
    | 100 :: format =>
      match n with
      | O => match scanInt (skipSpace input) with None => None | Some (rest, v) => sscanf format rest 1%nat v end
      | S _ => None
      end
    | _ => None
    end
  | c :: format => match input with c' :: input => if c =? c' then sscanf format input n idx else None | [] => None end
  end.

(** What os.Open and Readdirnames say: name_by_index.go:16-26 *)
Inductive dirAnswer := DNotExist | DOpenError | DReadError | DNames (names : list bytes).
Section ListFiles.
  (** path.Join(naming.Directory, name): name_by_index.go:36 *)
  Variable join : bytes -> bytes.
  (** name_by_index.go:28-36 *)
  Fixpoint listLoop (pattern : bytes) (names paths : list bytes) : list bytes :=
    match names with
    | [] => paths
    | name :: names =>
      match sscanf pattern name 0%nat 0 with
      | None => listLoop pattern names paths
      | Some (n, _) => if negb (n =? 1)%nat then listLoop pattern names paths else listLoop pattern names (paths ++ [join name])
      end
    end.
  (** name_by_index.go:15-39; None: an error.  StartIndex is not used *)
  Definition IndexListFiles (pattern : bytes) (dir : dirAnswer) : option (list bytes) :=
    match dir with
    | DNotExist => Some []
    | DOpenError | DReadError => None
    | DNames names => Some (listLoop pattern names [])
    end.
End ListFiles.
