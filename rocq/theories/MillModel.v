(** Model of the mill goroutine of countlog/output/lumberjack: how Write and Rotate ask for it, how it is started, and the steps in which
    it removes and compresses backups while the logger goes on.

    The calls of Write, Rotate and Close hold the mutex: one of them at a time, in steps between which the mill may do something.  The file
    operations of one openNew are one step, as are ReadDir, one removal and one compression.  What is done to the log and to its backups
    is LumberModel.  What the operating system answers, and the clock, come with the event.  An event whose goroutine is not at that point
    does nothing.  Not modelled: other processes, a Logger that is copied, files that disappear while ReadDir reads the directory. *)
From Verif Require Import Base RotationModel LumberModel.

(** Where the goroutine of lumberjack.go:383-388 is *)
Inductive worker :=
| Waiting                                  (* 384: for the next element of millCh *)
| Awake                                    (* 310: has received one *)
| Working (remove compress : list logInfo) (* 364-376: these remain to be removed and compressed *)
| Ended.                                   (* 388: millCh was closed *)

(** lumberjack.go:115-116.  [once]: startMill has been done; [pending]: whether millCh, of capacity 1, has an element; [ended]: whether it
    is closed; [workers]: the goroutines started in 395 *)
Record mill := mkMill { once : bool; pending : bool; ended : bool; workers : list worker }.

(** lumberjack.go:392-401, called with the mutex held: Once, and a send that does not wait *)
Definition ask (m : mill) : mill :=
  let m := if once m then m else mkMill true false false (workers m ++ [Waiting]) in
  if pending m then m else mkMill (once m) true (ended m) (workers m).

(** Where the call is that holds the mutex; lumberjack.go:137-206, 269-294 *)
Inductive pc :=
| Idle                                                                  (* the mutex is free *)
| Opening (p : bytes) (a a' : answers) (fails : option nat)             (* 272: the mill was asked in 270 *)
| Opened (p : bytes) (a' : answers) (fails : option nat)                (* 204: rotated in 281 *)
| Checking (p : bytes) (a' : answers) (fails : option nat)              (* 153 *)
| Checked (p : bytes) (fails : option nat)                              (* 204: rotated in 154 *)
| Writing (p : bytes) (fails : option nat)                              (* 159 *)
| Rotating (a : answers)                                                (* 198, called by Rotate *)
| Rotated.                                                              (* 204 *)

(** The Logger of lumberjack.go:76-118.  [noFormat]: BackupTimeFormat is empty; [crashed]: a panic in the mill has ended the program *)
Record st := mkSt { slog : logger; spc : pc; smill : mill; noFormat : bool; crashed : bool }.

(** What is seen of lumberjack.go:137-206, 308-401 *)
Inductive mout :=
| Log (o : output)
| Rotates (err : bool)               (* what Rotate returned *)
| Asked                              (* mill was called, 392 *)
| Listed (files : list (bytes * bool)) (now : Z) (* ReadDir, 406; currentTime(), 343 *)
| ListFailed.                        (* 407-409 *)

(** Who does what in lumberjack.go:137-401 *)
Inductive mevent :=
| CWrite (p : bytes) (a a' : answers) (fails : option nat) (* a call of Write gets the mutex, 138 *)
| CRotate (a : answers)                                    (* a call of Rotate gets the mutex, 189 *)
| CClose (fails : bool)                                    (* a call of Close, 167-171 *)
| CStep                                                    (* the call that holds the mutex makes a step *)
| MReceive (k : nat)                                       (* goroutine k receives from millCh, 384 *)
| MList (k : nat) (fails : bool) (dirs : list bytes) (now : Z) (* goroutine k reads the directory, 314; dirs: the directories in it *)
| MRemove (k : nat) (fails : bool)                         (* 365 *)
| MCompress (k : nat) (c : compression).                   (* 372 *)

Section Mill.
  (** l.dir() with its slash, the base of l.filename(), l.max(), gzip, time.Parse, sort.Sort; the fields of lumberjack.go:87-110 *)
  Variables (dir filename : bytes) (max : Z) (gzip : bytes -> bytes).
  Variables (parse : bytes -> option Z) (sort : list logInfo -> list logInfo).
  Variables (MaxBackups MaxAge : Z) (Compress : bool).

  (** lumberjack.go:298-304 *)
  Definition mname : bytes := dir ++ filename.
  (** lumberjack.go:252-264 *)
  Definition mbackup (ts : bytes) : bytes := dir ++ backupBase filename ts.

  (** The name of a path in the directory itself, for ReadDir; lumberjack.go:406 *)
  Definition inDir (p : bytes) : list bytes :=
    if hasPrefix p dir then
      let n := skipn (List.length dir) p in
      if existsb (Z.eqb 47) n then [] else [n]
    else [].
  (** ioutil.ReadDir(l.dir()), lumberjack.go:406; in an order of its own, which sort.Sort does away with *)
  Definition readDir (f : FS) (dirs : list bytes) : list (bytes * bool) :=
    map (fun n => (n, false)) (nodup (list_eq_dec Z.eq_dec) (flat_map (fun x => inDir (fst x)) (links f))) ++ map (fun n => (n, true)) dirs.

  (** The logger after a step of lumberjack.go:137-206, and where the call is *)
  Definition setLog (s : st) (l : logger) (p : pc) : st := mkSt l p (smill s) (noFormat s) (crashed s).
  (** The mill after a step of lumberjack.go:383-401 *)
  Definition setMill (s : st) (m : mill) : st := mkSt (slog s) (spc s) m (noFormat s) (crashed s).
  (** lumberjack.go:392-401, the next step of the call *)
  Definition asks (s : st) (p : pc) : st * list mout := (mkSt (slog s) p (ask (smill s)) (noFormat s) (crashed s), [Asked]).
  (** lumberjack.go:224-226: openNew sets BackupTimeFormat if there is a file to be renamed *)
  Definition formats (s : st) (a : answers) : bool :=
    match find (links (lfs (slog s))) mname with Some _ => negb (aMkdir a) && negb (aStatNew a) | None => false end.
  (** lumberjack.go:281-283: whether openExistingOrNew rotates *)
  Definition tooLarge (s : logger) (a : answers) (n : Z) : bool :=
    match find (links (lfs s)) mname with
    | Some i => negb (aStat a) && (max <=? int64 (lenZ (content (lfs s) i) + n))
    | None => false
    end.

  (** Whether the next step of the call uses BackupTimeFormat (lumberjack.go:224-227), and whether it writes it *)
  Definition usesC (s : st) : option bool :=
    let renames a := if formats s a then Some (noFormat s) else None in
    let closes (a : answers) := match lfile (slog s) with Some _ => negb (aClose a) | None => true end in
    match spc s with
    | Opening p a _ _ =>
      if aStat a then None
      else if tooLarge (slog s) a (lenZ p) then (if closes a then renames a else None)
      else if aAppend a then renames a else None
    | Checking p a' _ => if (max <? int64 (size (slog s) + lenZ p)) && closes a' then renames a' else None
    | Rotating a => if closes a then renames a else None
    | _ => None
    end.
  (** Whether BackupTimeFormat is empty after the next step of the call; lumberjack.go:224-226 *)
  Definition unformatted (s : st) : bool := noFormat s && match usesC s with Some _ => false | None => true end.

  (** Steps of lumberjack.go:137-206 *)
  Definition stepC (s : st) (e : mevent) : st * list mout :=
    match e with
    | CWrite p a a' fails =>
      match spc s with
      | Idle =>
        if max <? lenZ p then (s, [Log (OReturn 0 true)])
        else match lfile (slog s) with
          | None => asks s (Opening p a a' fails)
          | Some _ => (setLog s (slog s) (Checking p a' fails), [])
          end
      | _ => (s, [])
      end
    | CRotate a => match spc s with Idle => (setLog s (slog s) (Rotating a), []) | _ => (s, []) end
    | CClose fails => match spc s with Idle => (setLog s (fst (close (slog s) fails)) Idle, []) | _ => (s, []) end
    | CStep =>
      match spc s with
      | Idle => (s, [])
      | Opening p a a' fails =>
        let '(l, err, o) := openExistingOrNew mname max mbackup (slog s) a (lenZ p) in
        let s' := mkSt l Idle (smill s) (unformatted s) (crashed s) in
        if err then (s', map Log o ++ [Log (OReturn 0 true)])
        else (setLog s' l (if tooLarge (slog s) a (lenZ p) then Opened p a' fails else Checking p a' fails), map Log o)
      | Opened p a' fails => asks s (Checking p a' fails)
      | Checking p a' fails =>
        if max <? int64 (size (slog s) + lenZ p) then
          let '(l, err, o) := rotate mname mbackup (slog s) a' in
          let s' := mkSt l Idle (smill s) (unformatted s) (crashed s) in
          if err then (s', map Log o ++ [Log (OReturn 0 true)])
          else (setLog s' l (Checked p fails), map Log o)
        else (setLog s (slog s) (Writing p fails), [])
      | Checked p fails => asks s (Writing p fails)
      | Writing p fails =>
        match lfile (slog s) with
        | None => (setLog s (slog s) Idle, [Log (OReturn 0 true)])
        | Some x =>
          let chunk := match fails with None => p | Some n => firstn n p end in
          let '(f, x) := fileWrite (lfs (slog s)) x chunk in
          (setLog s (mkLogger f (int64 (size (slog s) + lenZ chunk)) (Some x)) Idle,
           [Log (OWrote chunk); Log (OReturn (List.length chunk) (match fails with None => false | Some _ => true end))])
        end
      | Rotating a =>
        let '(l, err, o) := rotate mname mbackup (slog s) a in
        let s' := mkSt l Idle (smill s) (unformatted s) (crashed s) in
        if err then (s', map Log o ++ [Rotates true]) else (setLog s' l Rotated, map Log o)
      | Rotated => let '(s, o) := asks s Idle in (s, o ++ [Rotates false])
      end
    | _ => (s, [])
    end.

  (** The goroutine is at line 310 again when nothing remains; lumberjack.go:384-388 *)
  Definition going (remove compress : list logInfo) : worker :=
    match remove, compress with [], [] => Waiting | _, _ => Working remove compress end.
  (** Goroutine k of lumberjack.go:395 after a step *)
  Definition setWorker (s : st) (k : nat) (w : worker) : st :=
    setMill s (mkMill (once (smill s)) (pending (smill s)) (ended (smill s)) (firstn k (workers (smill s)) ++ w :: skipn (S k) (workers (smill s)))).
  (** Whether timeFromName comes to the format; lumberjack.go:439-446 *)
  Definition named (n : bytes) : bool :=
    let '(prefix, ext) := prefixAndExt filename in
    hasPrefix n prefix && (hasSuffix n ext || hasSuffix n (ext ++ bs ".gz")).

  (** Steps of lumberjack.go:308-388 *)
  Definition stepM (s : st) (e : mevent) : st * list mout :=
    match e with
    | MReceive k =>
      match nth_error (workers (smill s)) k with
      | Some Waiting =>
        if pending (smill s) then
          (setWorker (setMill s (mkMill (once (smill s)) false (ended (smill s)) (workers (smill s)))) k Awake, [])
        else if ended (smill s) then (setWorker s k Ended, [])
        else (s, [])
      | _ => (s, [])
      end
    | MList k fails dirs now =>
      match nth_error (workers (smill s)) k with
      | Some Awake =>
        if (MaxBackups =? 0) && (MaxAge =? 0) && negb Compress then (setWorker s k Waiting, [])
        else if fails then (setWorker s k Waiting, [ListFailed])
        else
          let files := readDir (lfs (slog s)) dirs in
          match millChoice parse sort filename MaxBackups MaxAge Compress now files with
          | None => (mkSt (slog s) (spc s) (smill s) (noFormat s) true, [Listed files now])
          | Some (remove, compress) =>
            let s := mkSt (slog s) (spc s) (smill s) (noFormat s && negb (existsb (fun x => negb (snd x) && named (fst x)) files)) (crashed s) in
            (setWorker s k (going remove compress), [Listed files now])
          end
      | _ => (s, [])
      end
    | MRemove k fails =>
      match nth_error (workers (smill s)) k with
      | Some (Working (x :: remove) compress) =>
        let '(l, o) := if fails then (slog s, []) else step mname max mbackup gzip (slog s) (ERemove (dir ++ Name x)) in
        (setWorker (setLog s l (spc s)) k (going remove compress), map Log o)
      | _ => (s, [])
      end
    | MCompress k c =>
      match nth_error (workers (smill s)) k with
      | Some (Working [] (x :: compress)) =>
        let '(l, o) := step mname max mbackup gzip (slog s) (ECompress (dir ++ Name x) c) in
        (setWorker (setLog s l (spc s)) k (going [] compress), map Log o)
      | _ => (s, [])
      end
    | _ => (s, [])
    end.

  (** Whether reading the directory uses it (lumberjack.go:446-449), and whether it writes it *)
  Definition usesM (s : st) (k : nat) : option bool :=
    match nth_error (workers (smill s)) k with
    | Some Awake =>
      if ((MaxBackups =? 0) && (MaxAge =? 0) && negb Compress) || negb (existsb (fun x => named (fst x)) (readDir (lfs (slog s)) [])) then None
      else Some (noFormat s)
    | _ => None
    end.

  (** One step of lumberjack.go:137-401; none after a panic *)
  Definition mstep (s : st) (e : mevent) : st * list mout :=
    if crashed s then (s, [])
    else match e with
      | MReceive _ | MList _ _ _ _ | MRemove _ _ | MCompress _ _ => stepM s e
      | _ => stepC s e
      end.
  (** Steps of lumberjack.go:137-401 one after another *)
  Fixpoint mrun (s : st) (l : list mevent) : st * list mout :=
    match l with
    | [] => (s, [])
    | e :: l =>
      let '(s, o) := mstep s e in
      let '(s, o') := mrun s l in
      (s, o ++ o')
    end.
  (** &Logger{...}, lumberjack.go:76-118; [format]: whether BackupTimeFormat is set *)
  Definition newMill (f : FS) (format : bool) : st := mkSt (newLogger f) Idle (mkMill false false false []) (negb format) false.
End Mill.
