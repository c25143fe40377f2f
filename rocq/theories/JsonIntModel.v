(** Model of msgfmt/jsonfmt/encoder_int.go.
    [None] is a run-time panic (slice index out of range). *)
From Verif Require Import Base.

(** Go conversions between integer types, as in encoder_int.go:22-230 *)
Definition u8 (x : Z) : Z := x mod 2^8.     (* Go conversion uint8(x)/byte(x) *)
Definition u16 (x : Z) : Z := x mod 2^16.   (* Go conversion uint16(x) *)
Definition u32 (x : Z) : Z := x mod 2^32.   (* Go conversion uint32(x) *)
Definition u64 (x : Z) : Z := x mod 2^64.   (* Go conversion uint64(x) *)

(** Two's complement reading of the low [w] bits: Go's signed conversion / wrap-around. encoder_int.go:82-158. *)
Definition wrap_signed (w x : Z) : Z :=
  let r := x mod 2^w in if r <? 2^(w-1) then r else r - 2^w.

(** One entry of the table [digits]; encoder_int.go:13-18 (uint32 arithmetic). *)
Definition digits_entry (i : Z) : Z :=
  let base := u32 (Z.shiftl (i / 100 + 48) 16 + Z.shiftl ((i / 10) mod 10 + 48) 8
                   + i mod 10 + 48) in
  if i <? 10 then u32 (base + Z.shiftl 2 24)
  else if i <? 100 then u32 (base + Z.shiftl 1 24)
  else base.

(** The table itself, filled by init(); encoder_int.go:8-20. *)
Definition digits : list Z := map digits_entry (zseq 1000).

(** encoder_int.go:217-226 *)
Definition writeFirstBuf (space : bytes) (v : Z) : bytes :=
  let start := Z.shiftr v 24 in
  let space :=
    if start =? 0 then space ++ [u8 (Z.shiftr v 16); u8 (Z.shiftr v 8)]
    else if start =? 1 then space ++ [u8 (Z.shiftr v 8)]
    else space in
  space ++ [u8 v].

(** encoder_int.go:228-230 *)
Definition writeBuf (space : bytes) (v : Z) : bytes :=
  space ++ [u8 (Z.shiftr v 16); u8 (Z.shiftr v 8); u8 v].

(** encoder_int.go:78-80 *)
Definition WriteUint8 (space : bytes) (val : Z) : option bytes :=
  let? d := nthZ digits val in Some (writeFirstBuf space d).

(** encoder_int.go:82-91; [-nval] wraps in int8 *)
Definition WriteInt8 (space : bytes) (nval : Z) : option bytes :=
  let '(val, space) :=
    if nval <? 0 then (u8 (wrap_signed 8 (- nval)), space ++ [45])
    else (u8 nval, space) in
  let? d := nthZ digits val in Some (writeFirstBuf space d).

(** encoder_int.go:104-112; [val - q1*1000] in uint16 *)
Definition WriteUint16 (space : bytes) (val : Z) : option bytes :=
  let q1 := val / 1000 in
  if q1 =? 0 then let? d := nthZ digits val in Some (writeFirstBuf space d)
  else
    let r1 := u16 (val - q1 * 1000) in
    let? dq := nthZ digits q1 in
    let? dr := nthZ digits r1 in
    Some (writeBuf (writeFirstBuf space dq) dr).

(** encoder_int.go:93-102 *)
Definition WriteInt16 (space : bytes) (nval : Z) : option bytes :=
  let '(val, space) :=
    if nval <? 0 then (u16 (wrap_signed 16 (- nval)), space ++ [45])
    else (u16 nval, space) in
  WriteUint16 space val.

(** encoder_int.go:125-147 *)
Definition WriteUint32 (space : bytes) (val : Z) : option bytes :=
  let q1 := val / 1000 in
  if q1 =? 0 then let? d := nthZ digits val in Some (writeFirstBuf space d)
  else
    let r1 := u32 (val - q1 * 1000) in
    let q2 := q1 / 1000 in
    if q2 =? 0 then
      let? dq := nthZ digits q1 in
      let? d1 := nthZ digits r1 in
      Some (writeBuf (writeFirstBuf space dq) d1)
    else
      let r2 := u32 (q1 - q2 * 1000) in
      let q3 := q2 / 1000 in
      if q3 =? 0 then
        let? dq := nthZ digits q2 in
        let? d2 := nthZ digits r2 in
        let? d1 := nthZ digits r1 in
        Some (writeBuf (writeBuf (writeFirstBuf space dq) d2) d1)
      else
        let r3 := u32 (q2 - q3 * 1000) in
        let space := space ++ [u8 (q3 + 48)] in
        let? d3 := nthZ digits r3 in
        Some (writeBuf space d3).   (* returns here: r2 and r1 are never written *)

(** encoder_int.go:114-123 *)
Definition WriteInt32 (space : bytes) (nval : Z) : option bytes :=
  let '(val, space) :=
    if nval <? 0 then (u32 (wrap_signed 32 (- nval)), space ++ [45])
    else (u32 nval, space) in
  WriteUint32 space val.

(** encoder_int.go:160-214 *)
Definition WriteUint64 (space : bytes) (val : Z) : option bytes :=
  let q1 := val / 1000 in
  if q1 =? 0 then let? d := nthZ digits val in Some (writeFirstBuf space d)
  else
  let r1 := u64 (val - q1 * 1000) in
  let? d1 := nthZ digits r1 in
  let q2 := q1 / 1000 in
  if q2 =? 0 then
    let? dq := nthZ digits q1 in
    Some (writeBuf (writeFirstBuf space dq) d1)
  else
  let r2 := u64 (q1 - q2 * 1000) in
  let? d2 := nthZ digits r2 in
  let q3 := q2 / 1000 in
  if q3 =? 0 then
    let? dq := nthZ digits q2 in
    Some (writeBuf (writeBuf (writeFirstBuf space dq) d2) d1)
  else
  let r3 := u64 (q2 - q3 * 1000) in
  let? d3 := nthZ digits r3 in
  let q4 := q3 / 1000 in
  if q4 =? 0 then
    let? dq := nthZ digits q3 in
    Some (writeBuf (writeBuf (writeBuf (writeFirstBuf space dq) d3) d2) d1)
  else
  let r4 := u64 (q3 - q4 * 1000) in
  let? d4 := nthZ digits r4 in
  let q5 := q4 / 1000 in
  if q5 =? 0 then
    let? dq := nthZ digits q4 in
    Some (writeBuf (writeBuf (writeBuf (writeBuf (writeFirstBuf space dq) d4) d3) d2) d1)
  else
  let r5 := u64 (q4 - q5 * 1000) in
  let? d5 := nthZ digits r5 in
  let q6 := q5 / 1000 in
  let? space :=
    (if q6 =? 0 then
      let? dq := nthZ digits q5 in Some (writeFirstBuf space dq)
    else
      let r6 := u64 (q5 - q6 * 1000) in
      let? d6 := nthZ digits r6 in
      Some (writeBuf (space ++ [u8 (q6 + 48)]) d6)) in
  Some (writeBuf (writeBuf (writeBuf (writeBuf (writeBuf space d5) d4) d3) d2) d1).

(** encoder_int.go:149-158 *)
Definition WriteInt64 (space : bytes) (nval : Z) : option bytes :=
  let '(val, space) :=
    if nval <? 0 then (u64 (wrap_signed 64 (- nval)), space ++ [45])
    else (u64 nval, space) in
  WriteUint64 space val.
