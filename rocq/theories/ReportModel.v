(** Model of test/report.go. *)
From Verif Require Import Base.

Section Report.
  (** bytes.TrimSpace; test/report.go:24 *)
  Variable TrimSpace : bytes -> bytes.

  (** bytes.Split at newlines; test/report.go:17 *)
  Fixpoint split (content : bytes) : list bytes :=
    match content with
    | [] => [[]]
    | c :: content =>
      if c =? 10 then [] :: split content
      else match split content with line :: lines => (c :: line) :: lines | [] => [[c]] end
    end.
  (** bytes.Count of one byte; test/report.go:25-26 *)
  Definition count (c : Z) (line : bytes) : Z := Z.of_nat (List.length (filter (Z.eqb c) line)).
  (** test/report.go:23-30: what is appended for the lines from [line] on *)
  Fixpoint collect (lines : list bytes) (openBraces : Z) : bytes :=
    match lines with
    | [] => []
    | line :: lines =>
      let openBraces := openBraces + count 40 line - count 41 line in
      TrimSpace line ++ (if openBraces =? 0 then [] else collect lines openBraces)
    end.
  (** test/report.go:11-32; [content]: what ioutil.ReadFile gives, None for an error *)
  Definition ExtractFailedLines (content : option bytes) (line : Z) : bytes :=
    match content with
    | None => bs "check failed"
    | Some fileContent =>
      let line := line - 1 in
      let lines := split fileContent in
      if (line <? 0) || (line >=? Z.of_nat (List.length lines)) then bs "check failed"
      else bs "failed: " ++ collect (skipn (Z.to_nat line) lines) 0
    end.
End Report.
