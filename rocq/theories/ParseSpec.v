(** What a reader of a byte stream is expected to do, in terms of the bytes still to come. *)
From Verif Require Import Base DecimalSpec JsonStrSpec ParseModel.

(** The chunks of input held by or coming to a source, and the bytes still to come. *)
Definition chunks (s : Source) : list bytes :=
  s_current s :: s_next s ++ match s_reader s with None => [] | Some r => map fst (r_reads r) end.
Definition remaining (s : Source) : bytes := List.concat (chunks s).

(** The reader never returns data and an error at once (a string source has no reader). *)
Definition clean (s : Source) : Prop :=
  match s_reader s with
  | None => s_next s = []
  | Some r => Forall (fun p => snd p = None) (r_reads r)
  end.

(** The error the reader ends with. *)
Definition end_error (s : Source) : err :=
  match s_reader s with None => EOF | Some r => r_end r end.

(** The reader makes no empty reads: an empty chunk is followed by no data. *)
Definition compact (s : Source) : Prop :=
  forall p q, chunks s = p ++ [] :: q -> List.concat q = [].

(** [a] is the longest prefix of [s] whose elements satisfy [P], [b] the rest. *)
Definition longest {A} (P : A -> Prop) (s a b : list A) : Prop :=
  s = a ++ b /\ Forall P a /\ match b with [] => True | c :: _ => ~ P c end.

(** UTF-8: Unicode scalar values, and what decoding the front of a byte string gives: the scalar value whose
    encoding it starts with, or U+FFFD of width 1 if there is none. *)
Definition is_scalar (u : Z) : Prop := 0 <= u < 0xD800 \/ 0xE000 <= u < 0x110000.
Definition decodes (s : bytes) (r n : Z) : Prop :=
  (exists rest, is_scalar r /\ s = utf8 r ++ rest /\ n = lenZ (utf8 r)) \/
  (s <> [] /\ (forall u rest, is_scalar u -> s <> utf8 u ++ rest) /\ r = 0xFFFD /\ n = 1) \/
  (s = [] /\ r = 0xFFFD /\ n = 0).

(** [rs] are the leading runes of [s] that satisfy [P], up to the first that does not; [rest] follows them. *)
Inductive rune_run (P : Z -> Prop) : bytes -> list Z -> bytes -> Prop :=
| run_end : rune_run P [] [] []
| run_stop s r n : s <> [] -> decodes s r n -> ~ P r -> rune_run P s [] s
| run_step s r n rs rest : s <> [] -> decodes s r n -> P r -> rune_run P (skipn (Z.to_nat n) s) rs rest ->
    rune_run P s (r :: rs) rest.

(** White space: the code points with this property in the Unicode standard *)
Definition white_space : list Z :=
  [0x9; 0xA; 0xB; 0xC; 0xD; 0x20; 0x85; 0xA0; 0x1680; 0x2000; 0x2001; 0x2002; 0x2003; 0x2004; 0x2005; 0x2006; 0x2007; 0x2008; 0x2009; 0x200A;
   0x2028; 0x2029; 0x202F; 0x205F; 0x3000].

(** An optionally signed run of digits at the front of [s]; [rest] follows it. *)
Definition is_num (c : Z) : Prop := 48 <= c <= 57.
Definition signed_number (s : bytes) (neg : bool) (d rest : bytes) : Prop :=
  s = (if neg then [45] else []) ++ d ++ rest /\ Forall is_num d /\
  match rest with [] => True | c :: _ => ~ is_num c /\ (neg = false -> d = [] -> c <> 45) end.
Definition signed_value (neg : bool) (d : bytes) : Z := if neg then - digits_value d else digits_value d.

(** The usual grammar of sums and products, with its value. *)
Inductive Num : bytes -> Z -> Prop :=
| num neg d : d <> [] -> Forall is_num d -> - 2^63 <= signed_value neg d < 2^63 ->
    Num ((if neg then [45] else []) ++ d) (signed_value neg d).
Inductive Term : bytes -> Z -> Prop :=
| term_num s v : Num s v -> Term s v
| term_mul s v s' v' : Term s v -> Num s' v' -> Term (s ++ [42] ++ s') (v * v').
Inductive Sum : bytes -> Z -> Prop :=
| sum_term s v : Term s v -> Sum s v
| sum_add s v s' v' : Sum s v -> Term s' v' -> Sum (s ++ [43] ++ s') (v + v')
| sum_sub s v s' v' : Sum s v -> Term s' v' -> Sum (s ++ [45] ++ s') (v - v').

(** * Clients of a source *)
(** The calls a client can make, and what it gets back. *)
Inductive op :=
| OPeek | OPeek1 | OPeekN (n : nat) | OPeekRune | OConsume | OConsumeN (n : nat) | OConsume1 (b : Z) | OReport (e : err)
| OUint64 | OInt64 | OInt32 | OAny1 (space : bytes) (b : Z) | OAny2 (space : bytes) (b1 b2 : Z) | OSpace.
Inductive val := VU | VZ (z : Z) | VB (b : bytes) | VP (b : bytes) (e : option err) | VR (r n : Z).

Definition pure_op {A} (f : Source -> A * Source) : M A := fun s => let (a, s') := f s in Ok a s'.
Definition perform (o : op) : M val :=
  match o with
  | OPeek => fun s => Ok (VB (Peek s)) s
  | OPeek1 => do c <- Peek1; ret (VZ c)
  | OPeekN n => fun s => let '(p, e, s') := PeekN n s in Ok (VP p e) s'
  | OPeekRune => fun s => let '((r, n), s') := PeekRune s in Ok (VR r n) s'
  | OConsume => fun s => Ok (VB (Peek s)) (Consume s)     (* the result is what Peek gave just before *)
  | OConsumeN n => run ConsumeN n; ret VU
  | OConsume1 b => run Consume1 b; ret VU
  | OReport e => fun s => Ok VU (ReportError e s)
  | OUint64 => do v <- Uint64; ret (VZ v)
  | OInt64 => do v <- Int64; ret (VZ v)
  | OInt32 => do v <- Int32; ret (VZ v)
  | OAny1 space b => do v <- AnyExcept1 space b; ret (VB v)
  | OAny2 space b1 b2 => do v <- AnyExcept2 space b1 b2; ret (VB v)
  | OSpace => do v <- Space; ret (VZ v)
  end.

(** A client decides what to call next by what it got so far. *)
Inductive client (A : Type) := Done (a : A) | Call (o : op) (k : val -> client A).
Arguments Done {A}. Arguments Call {A}.
Fixpoint serve {A} (c : client A) : M A :=
  match c with
  | Done a => ret a
  | Call o k => do v <- perform o; serve (k v)
  end.

(** The same, for a client that gives up once Error() is [stop]. *)
Definition err_eqb (a b : err) : bool :=
  match a, b with
  | EOF, EOF => true
  | ErrReader n, ErrReader m => n =? m
  | ErrMsg n, ErrMsg m => if list_eq_dec Z.eq_dec n m then true else false
  | _, _ => false
  end.
Fixpoint serve_until {A} (stop : err) (c : client A) : M (option A) :=
  match c with
  | Done a => ret (Some a)
  | Call o k =>
    do v <- perform o;
    fun s => match Error s with
      | Some e => if err_eqb e stop then Ok None s else serve_until stop (k v) s
      | None => serve_until stop (k v) s
      end
  end.

(** Calls in a row, with the value of Error() after each. *)
Fixpoint perform_all (l : list op) : M (list (val * option err)) :=
  match l with
  | [] => ret []
  | o :: l => do v <- perform o; fun s => (do r <- perform_all l; ret ((v, Error s) :: r)) s
  end.

(** What a byte stream does under peeking and consuming. *)
Fixpoint stream_ok (s : bytes) (l : list (op * val)) (rest : bytes) : Prop :=
  match l with
  | [] => rest = s
  | (OPeek, VB c) :: l => (exists s', s = c ++ s') /\ stream_ok s l rest
  | (OPeekN n, VP p e) :: l => p = firstn n s /\ (e = None <-> (n <= List.length s)%nat) /\ stream_ok s l rest
  | (OConsumeN n, VU) :: l => (n <= List.length s)%nat /\ stream_ok (skipn n s) l rest
  | (OConsume, VB c) :: l => exists s', s = c ++ s' /\ stream_ok s' l rest
  | _ => False
  end.

Definition overflow64 : err := ErrMsg (bs "uint64: overflow").

(** The calls that do not show where the input was cut. *)
Definition uncut (o : op) : Prop := match o with OPeek | OConsume | OReport _ => False | _ => True end.

Inductive uncut_client {A} : client A -> Prop :=
| uc_done a : uncut_client (Done a)
| uc_call o k : uncut o -> (forall v, uncut_client (k v)) -> uncut_client (Call o k).

(** The loop readers alone, with Error() after each call, and without any condition on empty reads. *)
Definition reader_op (o : op) : Prop := match o with OUint64 | OAny1 _ _ | OAny2 _ _ _ | OSpace => True | _ => False end.

Definition stream_op (o : op) : Prop := match o with OPeek | OPeekN _ | OConsume | OConsumeN _ => True | _ => False end.

(** The wrapped value drops at some digit. *)
Definition drops (d : bytes) : Prop :=
  exists p c q, d = p ++ c :: q /\ digits_value (p ++ [c]) mod 2^64 < digits_value p mod 2^64.

(** How many tables contain a rune. *)
Definition matching (incl : list table) (r : Z) : nat := List.length (filter (fun t : table => t r) incl).

(** A recorded error is not changed. *)
Definition keeps {A} (m : M A) : Prop := forall s e a s', s_err s = Some e -> m s = Ok a s' -> s_err s' = Some e.
