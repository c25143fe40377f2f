(** Reading a JSON string literal, after RFC 8259 section 7, independent of the repository.
    Bytes >= 0x80 (UTF-8 continuation and lead bytes) stand for themselves. *)
From Verif Require Import Base.

Definition hex_digit (c : Z) : option Z :=
  if (48 <=? c) && (c <=? 57) then Some (c - 48)
  else if (97 <=? c) && (c <=? 102) then Some (c - 87)
  else if (65 <=? c) && (c <=? 70) then Some (c - 55)
  else None.

Definition hex4 (a b c d : Z) : option Z :=
  match hex_digit a, hex_digit b, hex_digit c, hex_digit d with
  | Some a, Some b, Some c, Some d => Some (4096 * a + 256 * b + 16 * c + d)
  | _, _, _, _ => None
  end.

(** UTF-8 encoding of a scalar value. *)
Definition utf8 (u : Z) : bytes :=
  if u <? 128 then [u]
  else if u <? 2048 then [192 + u / 64; 128 + u mod 64]
  else if u <? 65536 then [224 + u / 4096; 128 + (u / 64) mod 64; 128 + u mod 64]
  else [240 + u / 262144; 128 + (u / 4096) mod 64; 128 + (u / 64) mod 64; 128 + u mod 64].

(** The two-character escapes: quote, backslash, slash, b f n r t. *)
Definition short_escape (e : Z) : option Z :=
  if e =? 34 then Some 34 else if e =? 92 then Some 92 else if e =? 47 then Some 47
  else if e =? 98 then Some 8 else if e =? 102 then Some 12 else if e =? 110 then Some 10
  else if e =? 114 then Some 13 else if e =? 116 then Some 9 else None.

Definition prepend (x : bytes) (o : option (bytes * bytes)) : option (bytes * bytes) :=
  match o with Some (y, r) => Some (x ++ y, r) | None => None end.

(** The characters up to the closing quote: their meaning and what follows the quote. *)
Fixpoint string_body (s : bytes) : option (bytes * bytes) :=
  match s with
  | [] => None
  | c :: r =>
    if c =? 34 then Some ([], r)
    else if c =? 92 then
      match r with
      | [] => None
      | e :: r1 =>
        if e =? 117 then
          match r1 with
          | h1 :: h2 :: h3 :: h4 :: r2 =>
            match hex4 h1 h2 h3 h4 with
            | None => None
            | Some u =>
              if (55296 <=? u) && (u <? 56320) then
                match r2 with
                | b :: u' :: l1 :: l2 :: l3 :: l4 :: r3 =>
                  if (b =? 92) && (u' =? 117) then
                    match hex4 l1 l2 l3 l4 with
                    | Some v => if (56320 <=? v) && (v <? 57344)
                                then prepend (utf8 (65536 + (u - 55296) * 1024 + (v - 56320))) (string_body r3)
                                else None
                    | None => None
                    end
                  else None
                | _ => None
                end
              else if (56320 <=? u) && (u <? 57344) then None
              else prepend (utf8 u) (string_body r2)
            end
          | _ => None
          end
        else match short_escape e with
             | Some x => prepend [x] (string_body r1)
             | None => None
             end
      end
    else if c <? 32 then None
    else prepend [c] (string_body r)
  end.

(** A string literal at the start of the text: its meaning and the rest of the text. *)
Definition json_string (s : bytes) : option (bytes * bytes) :=
  match s with
  | c :: r => if c =? 34 then string_body r else None
  | [] => None
  end.

(** How []byte is meant to be displayed inside a JSON string: printable ASCII, tab, newline and
    carriage return as themselves, every other byte as the four characters \xHH. *)
Definition hexchar (n : Z) : Z := if n <? 10 then 48 + n else 87 + n.
Definition shown_as_is (b : Z) : bool :=
  (b <? 128) && ((32 <=? b) || (b =? 9) || (b =? 10) || (b =? 13)).
Definition display (s : bytes) : bytes :=
  flat_map (fun b => if shown_as_is b then [b] else [92; 120; hexchar (b / 16); hexchar (b mod 16)]) s.
