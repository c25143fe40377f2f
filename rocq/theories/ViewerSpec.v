(** What the page of witch's viewer is, without the functions of the model. *)
From Verif Require Import Base ViewerModel.

(** [s] with every occurrence of [p] replaced by [c], from the left *)
Inductive replaced (p c : bytes) : bytes -> bytes -> Prop :=
| r_none s : (forall a b, s <> a ++ p ++ b) -> replaced p c s s
| r_first a b r : (forall a' b', a ++ p ++ b = a' ++ p ++ b' -> (List.length a <= List.length a')%nat) ->
    replaced p c b r -> replaced p c (a ++ p ++ b) (a ++ c ++ r).

(** The files of the page, in their order *)
Definition component_files : list bytes :=
  map bs ["ide.html"; "log-viewer.html"; "filters.html"; "data-sources.html"; "columns.html"; "state-viewer.html"; "snapshots.html"; "viz.html";
    "viz-item.html"; "viz-value.html"; "viz-struct.html"; "viz-array.html"; "viz-plain.html"; "viz-ptr.html"]%string.

(** [page] is the page of the files that [fs] has, named by [name]; [script] is added to the components *)
Definition page_of (fs : fsys) (name : bytes -> bytes) (script page : bytes) : Prop :=
  exists index htmls, fs (name (bs "index.html")) = inl index /\
    Forall2 (fun file html => fs (name file) = inl html) component_files htmls /\
    replaced (bs "{{ COMPONENTS }}") (List.concat htmls ++ script) index page.
(** [err] is what reading the first file says that cannot be read *)
Definition first_error (fs : fsys) (name : bytes -> bytes) (err : bytes) : Prop :=
  exists before file after, bs "index.html" :: component_files = before ++ file :: after /\
    fs (name file) = inr err /\ forall f, In f before -> exists html, fs (name f) = inl html.
(** The name of a file in the program *)
Definition in_program (file : bytes) : bytes := bs "/" ++ file.

(** The lines, indented with tabs, that tell the page that it is read from the directory of the source *)
Definition debug_text : bytes :=
  List.concat (map (fun l : nat * bytes => 10 :: repeat 9 (fst l) ++ snd l)
    [(1%nat, bs "<script>"); (2%nat, bs "window.isDebug = true;"); (1%nat, bs "</script>"); (1%nat, [])]).
