(** Model of countlog/output/rotation: the Writer with its background goroutine, TriggerByInterval, TriggerBySize, ArchiveByMove,
    NameByTime, RetainByCount, PurgeByDelete.

    The file system is a map from paths to inodes and the contents of the inodes; an open file refers to an inode, not to a path.
    What the operating system answers (an I/O error) comes with the event, so that every behaviour of it is covered.  The goroutine
    that calls Write (one: "file is owned by the write goroutine") and the background goroutine are two programs whose atomic steps
    interleave in any order.  Not modelled: file modes, other processes, calls of Write by several goroutines, what loglog prints, the
    error values (a Write error is a flag). *)
From Verif Require Import Base.

(** 64 bit arithmetic wraps around; Go's / and % truncate and panic for a divisor of 0 *)
Definition int64 (z : Z) : Z := (z + 2 ^ 63) mod 2 ^ 64 - 2 ^ 63.
(** Equality of paths, for the file system (rotation.go:100, archive_by_move.go:14, purge_by_delete.go:14) *)
Definition streq (a b : bytes) : bool := if list_eq_dec Z.eq_dec a b then true else false.

(** * Triggers *)

(** trigger_by_interval.go:17-20.  The argument is clock.Now() in nanoseconds since 1970; Unix() are its whole seconds, rounded down.
    [None]: division by zero. *)
Definition second : Z := 10 ^ 9.
(** trigger_by_interval.go:17-20 *)
Definition intervalTimeToTrigger (Interval : Z) (now : Z) : option Z :=
  let epoch := now / second in
  if Interval =? 0 then None else Some (int64 (Interval - Z.rem (int64 (int64 epoch * second)) Interval)).

(** trigger_by_size.go:9-26.  stat: nil or the size so far; fileSize: what file.Stat() says ([None]: an error); n: len(buf).
    The result: stat, triggered, error. *)
Definition sizeUpdateStat (SizeInKB : Z) (stat : option Z) (fileSize : option Z) (n : Z) : option Z * bool * bool :=
  let judge size := (Some size, int64 (SizeInKB * 1024) <=? size, false) in
  match stat with
  | None => match fileSize with None => (None, false, true) | Some size => judge size end
  | Some size => judge (int64 (size + n))
  end.

(** * Archives *)

(** rotation.go:52-56 *)
Record Archive := mkArchive { Path : bytes; ArchivedAt : Z; Size : Z }.

(** retain_by_count.go:7-13.  [spare] is what lies behind the slice, up to its capacity.  [None]: slice bounds out of range. *)
Definition PurgeSet (MaxArchivesCount : Z) (archives spare : list Archive) : option (list Archive) :=
  if lenZ archives <=? MaxArchivesCount then Some []
  else
    let purgeCount := int64 (lenZ archives - MaxArchivesCount) in
    if (0 <=? purgeCount) && (purgeCount <=? lenZ archives + lenZ spare)
    then Some (firstn (Z.to_nat purgeCount) (archives ++ spare)) else None.

(** name_by_time.go:57-60 *)
Record timedFile := mkTimed { tfile : bytes; ttime : Z }.

Section NameByTime.
  (** path.Join(Directory, name); time.Parse(Pattern, name); sort.Sort with Less of line 66 (not stable: any function that sorts);
      os.Stat(path): the size, [None] an error *)
  Variable join : bytes -> bytes.
  Variable parse : bytes -> option Z.
  Variable sort : list timedFile -> list timedFile.
  Variable statSize : bytes -> option Z.

  (** name_by_time.go:30-40 *)
  Definition timedFilesOf (names : list bytes) : list timedFile :=
    flat_map (fun name => match parse name with None => [] | Some t => [mkTimed (join name) t] end) names.
  (** name_by_time.go:42-53 *)
  Fixpoint statAll (l : list timedFile) : option (list Archive) :=
    match l with
    | [] => Some []
    | f :: r =>
      let? s := statSize (tfile f) in
      let? l := statAll r in
      Some (mkArchive (tfile f) (ttime f) s :: l)
    end.
  (** name_by_time.go:21-55.  [names]: what Readdirnames returned, [None] if it or os.Open failed.  [None]: an error. *)
  Definition ListFiles (names : option (list bytes)) : option (list Archive) :=
    let? names := names in statAll (sort (timedFilesOf names)).
End NameByTime.

(** * The file system *)
Record FS := mkFS { links : list (bytes * nat); contents : list bytes }.
(** Lookup of a path, as os.OpenFile (rotation.go:100, 106), os.Rename (archive_by_move.go:14), os.Remove (purge_by_delete.go:14) do; not code of the repository *)
Fixpoint find (l : list (bytes * nat)) (p : bytes) : option nat :=
  match l with
  | [] => None
  | (q, i) :: r => if streq q p then Some i else find r p
  end.
(** os.Remove, purge_by_delete.go:14: the inode stays *)
Definition unlink (l : list (bytes * nat)) (p : bytes) : list (bytes * nat) := filter (fun x => negb (streq (fst x) p)) l.
(** A new name of an inode, as os.Rename makes (archive_by_move.go:14); it replaces an old file of that name *)
Definition link (l : list (bytes * nat)) (p : bytes) (i : nat) : list (bytes * nat) := (p, i) :: unlink l p.
(** The content of an inode is replaced (rotation.go:106-107, 126) *)
Definition setContent (l : list bytes) (i : nat) (c : bytes) : list bytes := firstn i l ++ c :: skipn (S i) l.
(** The content of an inode, as rotation.go:126 extends it *)
Definition content (f : FS) (i : nat) : bytes := nth i (contents f) [].

(** An open file: O_APPEND, or its own position; os.File, rotation.go:100, 106-107 *)
Record File := mkFile { inode : nat; append : bool; pos : nat; closed : bool }.

(** Writing to a file, at the end or at its position (which may be before the end, if the file is also written elsewhere); rotation.go:126 *)
Definition writeAt (c : bytes) (pos : nat) (buf : bytes) : bytes := firstn pos c ++ repeat 0 (pos - List.length c) ++ buf ++ skipn (pos + List.length buf) c.
(** file.Write, rotation.go:126 *)
Definition fileWrite (f : FS) (file : File) (buf : bytes) : FS * File :=
  let c := content f (inode file) in
  let c' := if append file then c ++ buf else writeAt c (pos file) buf in
  (mkFS (links f) (setContent (contents f) (inode file) c'), mkFile (inode file) (append file) (pos file + List.length buf) (closed file)).

Section Writer.
  (** The configuration, rotation.go:71-79: WritePath; the type of the stat of the trigger strategy, and nil; MaxArchivesCount of
      RetainByCount.  (ArchiveStrategy is ArchiveByMove, PurgeStrategy PurgeByDelete.) *)
  Variable WritePath : bytes.
  Variable Stat : Type.
  Variable noStat : Stat.
  Variable MaxArchivesCount : Z.
  (** Is there a directory for a file of that path? *)
  Variable hasDirectory : bytes -> bool.

  (** Between the steps of Write, rotation.go:116-140 *)
  Inductive wpc :=
  | WIdle
  | WStart (buf : bytes)                        (* 117 *)
  | WClose (buf : bytes)                        (* 118 *)
  | WOpen (buf : bytes)                         (* 100 *)
  | WCreate (buf : bytes)                       (* 105-107 *)
  | WWrite (buf : bytes)                        (* 126 *)
  | WCheck (buf : bytes) (n : nat) (err : bool) (* 127 *)
  | WUpdate (buf : bytes) (n : nat) (err : bool)(* 130 *)
  | WStore (n : nat) (err : bool)               (* 136 *)
  | WDone.                                      (* closed *)
  (** The timer channel of rotation.go:152: nil, to fire after a time, or read already, so that it never fires again *)
  Inductive timer := NoTimer | Pending (delay : Z) | Fired.
  (** Between the steps of rotateInBackground, rotation.go:147-179 *)
  Inductive rpc :=
  | RTop
  | RSelect                                     (* 159 *)
  | RRename                                     (* archive_by_move.go:10-20 *)
  | RList                                       (* archive_by_move.go:21 *)
  | RStore (archives spare : list Archive)      (* 172 *)
  | RPurge (purgeSet : list Archive)            (* 174: purge_by_delete.go:13-18 *)
  | RGone.                                      (* returned, or panicked *)

  (** rotation.go:17 *)
  Definition statusNormal : Z := 0.
  (** rotation.go:18 *)
  Definition statusTriggered : Z := 1.
  (** rotation.go:19 *)
  Definition statusArchived : Z := 2.
  (** rotation.go:21-31, and where the two goroutines are *)
  Record state := mkState { fs : FS; file : File; status : Z; stat : Stat; wp : wpc; rtimer : timer; rp : rpc }.

  (** What can happen; the arguments are the answers of the operating system and of the strategies; rotation.go:81-179 *)
  Inductive event :=
  | ECall (buf : bytes)                                    (* the caller calls Write *)
  | EWriter                                                (* a step of Write without an answer *)
  | EOpen (fails : bool)                                   (* os.OpenFile answers (an error other than "not exist") *)
  | EWrite (fails : option nat)                            (* file.Write answers: an error after that many bytes *)
  | EUpdate (st : Stat) (answer : option bool)             (* UpdateStat answers: stat, triggered ([None]: an error) *)
  | ETrigger (duration : option Z) (random : Z)            (* TimeToTrigger ([None]: it panics) and rand.Int63n *)
  | EFire                                                  (* the timer fires *)
  | ERename (next : option bytes) (fails : bool)           (* NextFile, and os.Rename (an error other than "not exist") *)
  | EList (archives : option (list Archive))               (* ListFiles *)
  | ERotate                                                (* a step of the background goroutine without an answer *)
  | ERemove (fails : bool)                                 (* os.Remove *)
  | EClose.                                                (* the caller calls Close *)
  (** What is seen of it; rotation.go:116-179 *)
  Inductive output :=
  | OReturn (n : nat) (err : bool)
  | OWrote (chunk : bytes)         (* that many bytes have reached a file *)
  | OUpdate                        (* UpdateStat was called *)
  | OReopened                      (* the file was closed and opened again *)
  | OArchived (p : bytes)          (* os.Rename to p succeeded *)
  | ORemoved (p : bytes)
  | ODied.                         (* the background goroutine panicked *)

  (** Assignments to one of these, no counterpart in the source; the places rotation.go:116-179 are at *)
  Definition setW (s : state) (w : wpc) : state := mkState (fs s) (file s) (status s) (stat s) w (rtimer s) (rp s).
  Definition setR (s : state) (r : rpc) : state := mkState (fs s) (file s) (status s) (stat s) (wp s) (rtimer s) r.
  (** rotation.go:157, 169 *)
  Definition setTimer (s : state) (t : timer) : state := mkState (fs s) (file s) (status s) (stat s) (wp s) t (rp s).
  (** rotation.go:136, 172 *)
  Definition setStatus (s : state) (x : Z) : state := mkState (fs s) (file s) x (stat s) (wp s) (rtimer s) (rp s).
  (** rotation.go:112; the file system: rotation.go:106-107, 126 *)
  Definition setFile (s : state) (f : FS) (x : File) : state := mkState f x (status s) (stat s) (wp s) (rtimer s) (rp s).
  (** rotation.go:130 *)
  Definition setStat (s : state) (x : Stat) : state := mkState (fs s) (file s) (status s) x (wp s) (rtimer s) (rp s).

  (** os.OpenFile(WritePath, O_CREATE|O_WRONLY|O_TRUNC), rotation.go:106-107; there is a directory: line 105 *)
  Definition create (f : FS) : FS * File :=
    match find (links f) WritePath with
    | Some i => (mkFS (links f) (setContent (contents f) i []), mkFile i false 0 false)
    | None => (mkFS (link (links f) WritePath (List.length (contents f))) (contents f ++ [[]]), mkFile (List.length (contents f)) false 0 false)
    end.

  (** The steps of Write *)
  Definition stepW (s : state) (e : event) : option (state * list output) :=
    match wp s, e with
    | WIdle, ECall buf => Some (setW s (WStart buf), [])
    (* rotation.go:117 *)
    | WStart buf, EWriter => Some (setW s (if status s =? statusArchived then WClose buf else WWrite buf), [])
    (* rotation.go:118-121; of a closed file Close only returns an error *)
    | WClose buf, EWriter =>
      let x := file s in Some (setW (setFile s (fs s) (mkFile (inode x) (append x) (pos x) true)) (WOpen buf), [])
    (* rotation.go:100-104; an error is dropped by line 122, and writer.file stays the closed file *)
    | WOpen buf, EOpen fails =>
      if fails then Some (setW s (WWrite buf), [])
      else match find (links (fs s)) WritePath with
           | Some i => Some (setW (setFile s (fs s) (mkFile i true 0 false)) (WWrite buf), [OReopened])
           | None => Some (setW s (WCreate buf), [])
           end
    (* rotation.go:105-113 *)
    | WCreate buf, EOpen fails =>
      if fails then Some (setW s (WWrite buf), [])
      else let '(f, x) := create (fs s) in Some (setW (setFile s f x) (WWrite buf), [OReopened])
    (* rotation.go:126 *)
    | WWrite buf, EWrite fails =>
      if closed (file s) then Some (setW s (WCheck buf 0 true), [])
      else
        let chunk := match fails with None => buf | Some n => firstn n buf end in
        let '(f, x) := fileWrite (fs s) (file s) chunk in
        Some (setW (setFile s f x) (WCheck buf (List.length chunk) (match fails with None => false | Some _ => true end)), [OWrote chunk])
    (* rotation.go:127 and 139 *)
    | WCheck buf n err, EWriter =>
      if status s =? statusNormal then Some (setW s (WUpdate buf n err), [])
      else Some (setW s WIdle, [OReturn n err])
    (* rotation.go:130-135; the error of UpdateStat replaces that of file.Write *)
    | WUpdate buf n err, EUpdate st answer =>
      match answer with
      | None => Some (setW (setStat s st) WIdle, [OUpdate; OReturn n true])
      | Some triggered => Some (if triggered then (setW (setStat s st) (WStore n err), [OUpdate])
                                else (setW (setStat s st) WIdle, [OUpdate; OReturn n err]))
      end
    (* rotation.go:136 and 139 *)
    | WStore n err, EWriter => Some (setW (setStatus s statusTriggered) WIdle, [OReturn n err])
    (* rotation.go:142-145: Close waits until the background goroutine is gone *)
    | WIdle, EClose =>
      match rp s with
      | RSelect | RGone =>
        let x := file s in Some (setR (setW (setFile s (fs s) (mkFile (inode x) (append x) (pos x) true)) WDone) RGone, [])
      | _ => None
      end
    | _, _ => None
    end.

  (** os.Rename(WritePath, p): the error "not exist" if there is no such file, or no directory for p; archive_by_move.go:14 *)
  Definition rename (f : FS) (p : bytes) : option FS :=
    match find (links f) WritePath with
    | Some i => if hasDirectory p then Some (mkFS (link (unlink (links f) WritePath) p i) (contents f)) else None
    | None => None
    end.

  (** The steps of rotateInBackground *)
  Definition stepR (s : state) (e : event) : option (state * list output) :=
    match rp s, e with
    (* rotation.go:154-158 *)
    | RTop, ETrigger duration random =>
      match duration with
      | None => Some (setR s RGone, [ODied])
      | Some d => Some (setR (if 0 <? d then setTimer s (Pending (int64 (d + random))) else s) RSelect, [])
      end
    (* rotation.go:159-164; archiveChan is nil: nothing is ever received from it *)
    | RSelect, EFire =>
      match rtimer s with
      | Pending _ => Some (setR (setTimer s Fired) RRename, [])
      | _ => None
      end
    (* archive_by_move.go:10-20; an error: rotation.go:166-171 *)
    | RRename, ERename next fails =>
      match next with
      | None => Some (setR (setTimer s (Pending (60 * second))) RTop, [])
      | Some p =>
        if fails then Some (setR (setTimer s (Pending (60 * second))) RTop, [])
        else match rename (fs s) p with
             | Some f => Some (setR (setFile s f (file s)) RList, [OArchived p])
             | None => Some (setR s (RStore [] []), [])
             end
      end
    | RList, EList archives =>
      match archives with
      | None => Some (setR (setTimer s (Pending (60 * second))) RTop, [])
      | Some l => Some (setR s (RStore l []), [])
      end
    (* rotation.go:172-173 *)
    | RStore archives spare, ERotate =>
      match PurgeSet MaxArchivesCount archives spare with
      | Some l => Some (setR (setStatus s statusArchived) (RPurge l), [])
      | None => Some (setR (setStatus s statusArchived) RGone, [ODied])
      end
    (* purge_by_delete.go:13-18 *)
    | RPurge (x :: l), ERemove fails =>
      match fails, find (links (fs s)) (Path x) with
      | false, Some _ => Some (setR (setFile s (mkFS (unlink (links (fs s)) (Path x)) (contents (fs s))) (file s)) (RPurge l), [ORemoved (Path x)])
      | _, _ => Some (setR s (RPurge l), [])
      end
    | RPurge [], ERotate => Some (setR s RTop, [])
    | _, _ => None
    end.

  (** rotation.go:116-179: a step of one of the two goroutines *)
  Definition step (s : state) (e : event) : option (state * list output) :=
    match e with
    | ETrigger _ _ | EFire | ERename _ _ | EList _ | ERotate | ERemove _ => stepR s e
    | _ => stepW s e
    end.
  (** rotation.go:116-179: any interleaving *)
  Fixpoint run (s : state) (l : list event) : option (state * list output) :=
    match l with
    | [] => Some (s, [])
    | e :: l =>
      let? (s, o) := step s e in
      let? (s, o') := run s l in
      Some (s, o ++ o')
    end.

  (** rotation.go:81-114: NewWriter without an error *)
  Definition NewWriter (f : FS) : state :=
    let '(f, x) := match find (links f) WritePath with Some i => (f, mkFile i true 0 false) | None => create f end in
    mkState f x statusNormal noStat WIdle NoTimer RTop.
End Writer.
