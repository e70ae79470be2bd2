(** render/common.go and render/writer.go: page ownership, URLs, the set of
    files written, and the search index. *)
From Coq Require Import Ascii String.
From stdpp Require Import base list strings.
From Verif Require Import GoBase Ast Content Section.

(** render/common.go:12-22 [sectionPageOwner]. *)
Definition page_owner_F (h : heap) (rec : nat → option nat) (i : nat) : option nat :=
  s ← h !! i;
  match s_parent s with
  | None => Some i
  | Some p =>
    ps ← h !! p;
    if s_split ps then Some i else rec p
  end.
Definition page_owner (h : heap) (i : nat) : option nat :=
  gofix (page_owner_F h) (fuel_of h) i.

(** render/common.go:24-42 [sectionURL]. The recursive call is on the owner,
    which owns itself, so two levels suffice. *)
Definition section_url_F (h : heap) (ext : string)
    (rec : nat * string → option string) (x : nat * string) : option string :=
  let '(i, anchor) := x in
  owner ← page_owner h i;
  s ← h !! i;
  if negb (Nat.eqb owner i) then
    let anchor := if String.eqb anchor "" then t_name (s_primary s) else anchor in
    rec (owner, anchor)
  else
    let filename := (t_name (s_primary s) +:+ "." +:+ ext)%string in
    Some (if String.eqb anchor "" then filename else filename +:+ "#" +:+ anchor)%string.
Definition section_url (h : heap) (ext : string) (i : nat) (anchor : string) : option string :=
  gofix (section_url_F h ext) (fuel_of h) (i, anchor).

(** render/html.go:30-32,161-163 and render/text.go:154-156: [URL] of a tag; a
    zero tag has a nil section ([None]: nil dereference). *)
Definition tag_url (h : heap) (ext : string) (t : tag) : option string :=
  s ← t_section t; section_url h ext s (t_anchor t).

(** render/html.go:51-58 [headerDepth]. *)
Definition header_depth (h : heap) (i : nat) : option nat :=
  d ← page_depth h i;
  let depth := d + 1 in
  Some (if Nat.ltb 6 depth then 6 else depth).

(** ** Writing pages *)

(** The destination directory: file name to contents (latest first). *)
Definition files := list (string * string).

(** What [Engine.RenderSection] does for a section: the bytes written to the
    file and whether it then failed. *)
Definition engine := nat → string * option error.

(** render/writer.go:119-141 [writeSingleSection]: the file is created or
    truncated, then rendered to. [os.OpenFile] is assumed to succeed unless
    [open_ok] says otherwise. *)
Definition page_file (ext : string) (s : section) : string :=
  (t_name (s_primary s) +:+ "." +:+ ext)%string.
Definition write_single (open_ok : string → bool) (ext : string) (eng : engine) (s : section) (i : nat)
    (fs : files) : files * option error :=
  let name := page_file ext s in
  if open_ok name then
    let '(bytes, err) := eng i in (assoc_set name bytes fs, err)
  else (fs, Some (EStat name)).

(** render/writer.go:48-64 [WriteSection]. The result also lists the sections
    whose files were opened, in order. *)
Definition write_section_F (h : heap) (open_ok : string → bool) (ext : string) (eng : engine)
    (rec : nat * files → option (files * option error)) (x : nat * files)
    : option (files * option error) :=
  let '(i, fs) := x in
  s ← h !! i;
  own ← match s_parent s with
        | None => Some true
        | Some p => ps ← h !! p; Some (s_split ps)
        end;
  let r := if (own : bool) then write_single open_ok ext eng s i fs else (fs, None) in
  match r with
  | (fs, Some e) => Some (fs, Some e)
  | (fs, None) =>
    (fix loop (cs : list nat) (fs : files) : option (files * option error) :=
       match cs with
       | [] => Some (fs, None)
       | c :: r =>
         res ← rec (c, fs);
         match res with
         | (fs, Some e) => Some (fs, Some e)
         | (fs, None) => loop r fs
         end
       end) (s_children s) fs
  end.
Definition write_section (h : heap) (open_ok : string → bool) (ext : string) (eng : engine)
    (i : nat) (fs : files) : option (files * option error) :=
  gofix (write_section_F h open_ok ext eng) (fuel_of h) (i, fs).

(** ** Search index *)

(** render/writer.go:26-42 [SearchDocument]. *)
Record search_doc := SearchDoc {
  sd_location : string;
  sd_title : string;
  sd_text : string;
  sd_depth : nat;
  sd_section_tag : string
}.

(** render/writer.go:98-111: the entry of one tag. *)
Definition tag_doc (str : content → outcome error string) (h : heap) (ext : string) (t : tag)
    : outcome error search_doc :=
  match t_section t with
  | None => Panic
  | Some ts =>
    match h !! ts with
    | None => Panic
    | Some sec =>
      obind (λ text,
        match tag_url h ext t, t_title t, depth h ts with
        | Some url, Some title, Some d =>
          obind (λ ti, Ok (SearchDoc url ti text d (t_name (s_primary sec)))) (str title)
        | _, _, _ => Panic
        end) (str (match t_content t with Some c => c | None => s_body sec end))
    end
  end.

(** render/writer.go:96-117 [loadTags]; the index is a Go map. *)
Fixpoint index_tags (str : content → outcome error string) (h : heap) (ext : string)
    (ts : list tag) (idx : list (string * search_doc)) : outcome error (list (string * search_doc)) :=
  match ts with
  | [] => Ok idx
  | t :: r => obind (λ d, index_tags str h ext r (assoc_set (t_name t) d idx)) (tag_doc str h ext t)
  end.

Fixpoint load_tags (fuel : nat) (str : content → outcome error string) (h : heap) (ext : string)
    (i : nat) (idx : list (string * search_doc)) : outcome error (list (string * search_doc)) :=
  match fuel with
  | 0 => NoFuel
  | S n =>
    match h !! i with
    | None => Panic
    | Some s =>
      obind ((fix loop (cs : list nat) idx :=
        match cs with
        | [] => Ok idx
        | c :: r => obind (loop r) (load_tags n str h ext c idx)
        end) (s_children s)) (index_tags str h ext (s_tags s) idx)
    end
  end.
Definition search_index (str : content → outcome error string) (h : heap) (ext : string) (i : nat) :=
  load_tags (fuel_of h) str h ext i [].
