(** Model of msgfmt/jsonfmt/encoder_str.go and encoder_bytes.go. *)
From Verif Require Import Base JsonIntModel.

(** encoder_str.go:15-112.  The 128-entry bool table, written as the set of its true entries:
    every ASCII code from ' ' to 0x7f except the double quote and the backslash.  It is only indexed
    with bytes below 128. *)
Definition safeSet (b : Z) : bool :=
  (32 <=? b) && (b <? 128) && negb (b =? 34) && negb (b =? 92).

(** encoder_str.go:114 *)
Definition hex : bytes := bs "0123456789abcdef".

(** hex[i] for 0 <= i < 16 (always the case for the nibbles of a byte). *)
Definition hexAt (i : Z) : Z := nth (Z.to_nat i) hex 0.

(** s[lo:hi] for 0 <= lo <= hi <= len(s) *)
Definition slice {A} (s : list A) (lo hi : Z) : list A :=
  firstn (Z.to_nat (hi - lo)) (skipn (Z.to_nat lo) s).

(** The loop [for i, c = range s { if ok(c) {append} else {break} }] of encoder_str.go:128-134 and
    encoder_bytes.go:21-27.  [i] is the Go variable (index of the last visited element, 0 initially),
    [idx] the index of the next element.  Returns the buffer and the final [i]. *)
Fixpoint fastLoop (ok : Z -> bool) (space : bytes) (i idx : Z) (s : bytes) : bytes * Z :=
  match s with
  | [] => (space, i)
  | c :: r => if ok c then fastLoop ok (space ++ [c]) idx (idx + 1) r else (space, idx)
  end.

(** The switch of encoder_str.go:157-169. *)
Definition escStr (b : Z) : bytes :=
  if (b =? 92) || (b =? 34) then [92; b]
  else if b =? 10 then bs "\n"
  else if b =? 13 then bs "\r"
  else if b =? 9 then bs "\t"
  else [92; 117; 48; 48; hexAt (Z.shiftr b 4); hexAt (Z.land b 15)].

(** encoder_str.go:147-171, the loop over [rest] = s[i:]; state [space], [start]. *)
Fixpoint strSlowLoop (s : bytes) (space : bytes) (start i : Z) (rest : bytes) : bytes * Z :=
  match rest with
  | [] => (space, start)
  | b :: r =>
    if 128 <=? b then strSlowLoop s space start (i + 1) r
    else if safeSet b then strSlowLoop s space start (i + 1) r
    else
      let space := if start <? i then space ++ slice s start i else space in
      strSlowLoop s (space ++ escStr b) (i + 1) (i + 1) r
  end.

(** encoder_str.go:142-176 *)
Definition writeStringSlowPath (space s : bytes) : bytes :=
  let '(space, start) := strSlowLoop s space 0 0 s in
  let space := if start <? lenZ s then space ++ slice s start (lenZ s) else space in
  space ++ [34].

(** encoder_str.go:123-140 *)
Definition WriteString (space str : bytes) : bytes :=
  let space := space ++ [34] in
  let '(space, i) := fastLoop (fun c => (31 <? c) && negb (c =? 34) && negb (c =? 92)) space 0 0 str in
  if i =? lenZ str - 1 then space ++ [34]
  else writeStringSlowPath space (slice str i (lenZ str)).

(** The switch of encoder_bytes.go:52-64. *)
Definition escBytes (b : Z) : bytes :=
  if (b =? 92) || (b =? 34) then [92; b]
  else if b =? 10 then bs "\n"
  else if b =? 13 then bs "\r"
  else if b =? 9 then bs "\t"
  else [92; 92; 120; hexAt (Z.shiftr b 4); hexAt (Z.land b 15)].

(** encoder_bytes.go:40-66 *)
Fixpoint bytesSlowLoop (s : bytes) (space : bytes) (start i : Z) (rest : bytes) : bytes * Z :=
  match rest with
  | [] => (space, start)
  | b :: r =>
    if 128 <=? b then
      (* note: s[start:i] is not flushed here *)
      bytesSlowLoop s (space ++ [92; 92; 120; hexAt (Z.shiftr b 4); hexAt (Z.land b 15)]) (i + 1) (i + 1) r
    else if safeSet b then bytesSlowLoop s space start (i + 1) r
    else
      let space := if start <? i then space ++ slice s start i else space in
      bytesSlowLoop s (space ++ escBytes b) (i + 1) (i + 1) r
  end.

(** encoder_bytes.go:35-71 *)
Definition writeBytesSlowPath (space s : bytes) : bytes :=
  let '(space, start) := bytesSlowLoop s space 0 0 s in
  let space := if start <? lenZ s then space ++ slice s start (lenZ s) else space in
  space ++ [34].

(** encoder_bytes.go:16-33 *)
Definition WriteBytes (space s : bytes) : bytes :=
  let space := space ++ [34] in
  let '(space, i) := fastLoop (fun c => (c <? 128) && safeSet c) space 0 0 s in
  if i =? lenZ s - 1 then space ++ [34]
  else writeBytesSlowPath space (slice s i (lenZ s)).
