(** Model of the page of witch's viewer, witch/witch.go: loading it, Start, the home page, the routes.  Not modelled: what countlog.Error and countlog.Info log,
    and setCurrentGoRoutineIsKoala, which does nothing (witch/tag_with_original_go.go:5-6). *)
From Verif Require Import Base.

(** witch.go:18-24 *)
Definition files : list bytes :=
  [bs "ide.html"; bs "log-viewer.html"; bs "filters.html"; bs "data-sources.html"; bs "columns.html"; bs "state-viewer.html"; bs "snapshots.html";
   bs "viz.html"; bs "viz-item.html"; bs "viz-value.html"; bs "viz-struct.html"; bs "viz-array.html"; bs "viz-plain.html"; bs "viz-ptr.html"].
(** witch.go:71, 104 *)
Definition placeholder : bytes := bs "{{ COMPONENTS }}".
(** witch.go:99-103: the string literal with its line breaks and tabs *)
Definition debugScript : bytes :=
  [10; 9] ++ bs "<script>" ++ [10; 9; 9] ++ bs "window.isDebug = true;" ++ [10; 9] ++ bs "</script>" ++ [10; 9].

(** What follows a prefix, for bytes.Replace (witch.go:71, 104) *)
Fixpoint stripPrefix (p s : bytes) : option bytes :=
  match p, s with
  | [], _ => Some s
  | a :: p, b :: s => if a =? b then stripPrefix p s else None
  | _ :: _, [] => None
  end.
(** bytes.Replace(s, old, new, -1) for a text [old] that is not empty (witch.go:71, 104); the fuel is more than the length of [s] *)
Fixpoint replaceAll (fuel : nat) (old new s : bytes) : bytes :=
  match fuel with
  | O => []
  | S fuel =>
    match stripPrefix old s with
    | Some rest => new ++ replaceAll fuel old new rest
    | None => match s with [] => [] | c :: s => c :: replaceAll fuel old new s end
    end
  end.
(** witch.go:71, 104 *)
Definition Replace (s old new : bytes) : bytes := replaceAll (S (List.length s)) old new s.

(** A file system: what reading a file gives, [inr] the text of an error (witch.go:46-59, 85-92) *)
Definition fsys := bytes -> bytes + bytes.
(** The loop over the files, witch.go:57-70 and 91-98; [name]: of a file *)
Fixpoint readAll (fs : fsys) (name : bytes -> bytes) (l : list bytes) (components : bytes) : bytes + bytes :=
  match l with
  | [] => inl components
  | file :: l =>
    match fs (name file) with
    | inr err => inr err
    | inl fileHtml => readAll fs name l (components ++ fileHtml)
    end
  end.

(** The variables: viewerHtml (witch.go:28; None: nil), whether countlog.EventWriter is the event queue (114-117), the addresses that are listened at (118-123) *)
Record world := mkWorld { viewerHtml : option bytes; writerIsQueue : bool; listening : list bytes }.
(** witch.go:38-73.  [statik]: the files in the program, None if fs.New fails.  The error, None for nil; viewerHtml.  bytes.Replace of nothing is nil *)
Definition initViewerHtml (statik : option fsys) (html : option bytes) : bool * option bytes :=
  match html with
  | Some _ => (false, html)
  | None =>
    match statik with
    | None => (true, None)
    | Some fs =>
      match fs (bs "/index.html") with
      | inr _ => (true, None)
      | inl indexHtml =>
        match readAll fs (fun file => bs "/" ++ file) files [] with
        | inr _ => (true, None)
        | inl components => (false, match indexHtml with [] => None | _ => Some (Replace indexHtml placeholder components) end)
        end
      end
    end
  end.
(** witch.go:107-124 *)
Definition Start (statik : option fsys) (addr : bytes) (w : world) : world :=
  let '(failed, html) := initViewerHtml statik (viewerHtml w) in
  if failed then mkWorld html (writerIsQueue w) (listening w)
  else mkWorld html true (match addr with [] => listening w | _ => listening w ++ [addr] end).

(** witch.go:75; it is assigned nowhere else *)
Definition isDebug : bool := true.
Section Debug.
  (** path.Join(path.Dir(thisFile), "webroot"), witch.go:78-84: where the source was when the program was built; path.Join of it and a name *)
  Variable join : bytes -> bytes.
  (** The file system of the machine (witch.go:85, 92) *)
  Variable disk : fsys.
  (** witch.go:83-105 *)
  Definition loadDebugViewerHtml : bytes + bytes :=
    match disk (join (bs "index.html")) with
    | inr err => inr err
    | inl indexHtml =>
      match readAll disk join files [] with
      | inr err => inr err
      | inl components => inl (Replace indexHtml placeholder (components ++ debugScript))
      end
    end.
  (** witch.go:126-138: what is written *)
  Definition homepage (w : world) : bytes :=
    if negb isDebug then match viewerHtml w with Some h => h | None => [] end
    else match loadDebugViewerHtml with inr err => err | inl html => html end.
End Debug.

(** witch.go:32-36: the handlers; http.ServeMux chooses the longest pattern that matches a path, a pattern that ends with a slash matches what it is a prefix of *)
Inductive handler := HMoreEvents | HExpvar | HHomepage.
(** witch.go:33-35 *)
Definition patterns : list (bytes * handler) := [(bs "/witch/more-events", HMoreEvents); (bs "/witch/expvar", HExpvar); (bs "/witch/", HHomepage)].
(** http.ServeMux (witch.go:30) *)
Definition matches (pattern path : bytes) : bool :=
  if last pattern 0 =? 47 then match stripPrefix pattern path with Some _ => true | None => false end
  else if list_eq_dec Z.eq_dec pattern path then true else false.
(** http.ServeMux (witch.go:30), for clean paths; None: not found (or a redirect of a path without its slash) *)
Definition route (path : bytes) : option handler :=
  option_map snd (
  fold_left (fun best p => if matches (fst p) path then
      match best with Some b => if (List.length (fst b) <? List.length (fst p))%nat then Some p else best | None => Some p end else best) patterns None
  ).
