(** What a template means: its text, the values its placeholders stand for, and the text it expands to. *)
From Verif Require Import Base JsonStrSpec ParseModel ParseSpec MsgfmtModel.

(** Runes of a name: neither white space nor punctuation in the sense of Unicode's pattern properties. *)
Definition name_rune (r : Z) : Prop := is_scalar r /\ Pattern_White_Space r = false /\ Pattern_Syntax r = false.

(** A placeholder {name} or {name, goTime} or {name, goTime, layout, ...}, with white space (runes) around the
    name and before goTime. *)
Record placeholder := mkPlaceholder {
  p_before : list Z;
  p_name : list Z;
  p_after : list Z;
  p_time : option (list Z * list bytes)
}.
Definition space_runes (l : list Z) : Prop := Forall (fun r => is_scalar r /\ unicodeIsSpace r = true) l.
Definition layout_ok (l : bytes) : Prop := ~ In 44 l /\ ~ In 125 l.
Definition placeholder_ok (p : placeholder) : Prop :=
  space_runes (p_before p) /\ space_runes (p_after p) /\ Forall name_rune (p_name p) /\
  match p_name p with r :: _ => unicodeIsSpace r = false | [] => p_after p = [] end /\
  match p_after p with r :: _ => Pattern_White_Space r = true | [] => True end /\
  match p_time p with None => True | Some (sp, args) => space_runes sp /\ Forall layout_ok args end.

Definition runes_text (l : list Z) : bytes := flat_map utf8 l.
Definition key_of (p : placeholder) : bytes := runes_text (p_name p).
Definition placeholder_text (p : placeholder) : bytes :=
  bs "{" ++ runes_text (p_before p) ++ key_of p ++ runes_text (p_after p) ++
  match p_time p with
  | None => []
  | Some (sp, args) => bs "," ++ runes_text sp ++ bs "goTime" ++ flat_map (fun a => 44 :: a) args
  end ++ bs "}".

(** A template: literals without '{', each but the last followed by a placeholder. *)
Record template := mkTemplate { t_parts : list (bytes * placeholder); t_end : bytes }.
Definition parts_text (l : list (bytes * placeholder)) : bytes := flat_map (fun x => fst x ++ placeholder_text (snd x)) l.
Definition template_text (t : template) : bytes := parts_text (t_parts t) ++ t_end t.
Definition template_ok (t : template) : Prop :=
  Forall (fun x => ~ In 123 (fst x) /\ placeholder_ok (snd x)) (t_parts t) /\ ~ In 123 (t_end t).
(** All placeholders are plain, {name}. *)
Definition plain_template (t : template) : Prop := Forall (fun x => p_time (snd x) = None) (t_parts t).

(** The value of a key: the first with that key, in a list key, value, key, value, ... *)
Fixpoint value_of (kv : list value) (k : bytes) : option value :=
  match kv with
  | VStr k' :: v :: r => if list_eq_dec Z.eq_dec k' k then Some v else value_of r k
  | _ => None
  end.

(** How a []byte is meant to be shown: printable ASCII except the backslash and the vertical bar as itself,
    the backslash, newline, carriage return and tab in the usual escaped form, everything else as \xHH. *)
Definition clear (b : Z) : Prop := 32 <= b < 128 /\ b <> 92 /\ b <> 124.
Definition escaped (b : Z) : bytes :=
  if (32 <=? b) && (b <? 128) && negb (b =? 92) && negb (b =? 124) then [b]
  else if b =? 92 then bs "\\" else if b =? 10 then bs "\n" else if b =? 13 then bs "\r" else if b =? 9 then bs "\t"
  else bs "\x" ++ [hexchar (b / 16); hexchar (b mod 16)].
Definition escaped_all (s : bytes) : bytes := flat_map escaped s.
(** Where bytes get lost: the first byte that is not clear is the last one, or somewhere after such a byte a
    clear byte stands directly before a byte >= 0x80. *)
Definition fmt_loses (s : bytes) : Prop :=
  (exists p c, s = p ++ [c] /\ Forall clear p /\ ~ clear c) \/
  (exists x c y a h z, s = x ++ c :: y ++ a :: h :: z /\ ~ clear c /\ clear a /\ 128 <= h).

Section Texts.
  Variable encoderOf : Z -> option (value -> option bytes).
  Variable timeString : Z -> bytes.
  Variable timeFormat : bytes -> Z -> bytes.
  Variable trimSpace : bytes -> bytes.

  (** The text of a value. *)
  Inductive shows : value -> bytes -> Prop :=
  | shows_string s : shows (VStr s) s
  | shows_bytes s : bytes_ok s -> ~ fmt_loses s -> shows (VByt s) (escaped_all s)
  | shows_time t : shows (VTime t) (timeString t)
  | shows_stringer ty s : shows (VStringer ty (Some s)) s
  | shows_json ty x enc s : encoderOf ty = Some enc -> enc (VAny ty x) = Some s -> shows (VAny ty x) s.

  (** The layout a time placeholder asks for. *)
  Definition layout_of (args : list bytes) : bytes :=
    trimSpace (match args with [] => bs "2006-01-02T15:04:05Z07:00" | a :: _ => a end).

  (** The text a placeholder stands for. *)
  Definition stands_for (kv : list value) (p : placeholder) (s : bytes) : Prop :=
    exists v, value_of kv (key_of p) = Some v /\
    match p_time p with
    | None => shows v s
    | Some (_, args) => exists t, v = VTime t /\ s = timeFormat (layout_of args) t
    end.

  (** The text a template expands to. *)
  Inductive expands (kv : list value) : list (bytes * placeholder) -> bytes -> bytes -> Prop :=
  | expands_end e : expands kv [] e e
  | expands_part l p parts e s out : stands_for kv p s -> expands kv parts e out ->
      expands kv ((l, p) :: parts) e (l ++ s ++ out).

  (** A value that has a text at all. *)
  Definition printable (v : value) : Prop :=
    match v with
    | VStr _ | VByt _ | VTime _ => True
    | VStringer _ t => t <> None
    | VAny ty x => exists enc s, encoderOf ty = Some enc /\ enc (VAny ty x) = Some s
    end.
End Texts.

(** Two argument lists with the same keys at the same places, and values of the same kinds. *)
Definition kind (v : value) : Z * Z :=
  match v with
  | VStr _ => (0, 0) | VByt _ => (1, 0) | VTime _ => (2, 0) | VStringer ty _ => (3, ty) | VAny ty _ => (4, ty)
  end.
Fixpoint same_shape (a b : list value) : Prop :=
  match a, b with
  | [], [] => True
  | [k], [k'] => k = k'
  | k :: v :: a, k' :: v' :: b => k = k' /\ kind v = kind v' /\ same_shape a b
  | _, _ => False
  end.
