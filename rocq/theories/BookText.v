(** The search index one expects of a book (Book.v), told from the book alone. *)
From Coq Require Import Ascii String.
From stdpp Require Import base list strings.
From Verif Require Import GoBase Section Render Book.
Local Open Scope string_scope. Local Open Scope list_scope.

(** What everything that can be referred to is called. *)
Fixpoint names (b : sec) : list (string * string) :=
  match b with
  | Sec title _ _ _ body subs =>
      map (λ t, (t, text title)) (tag_names b) ++
      map (λ a, (fst a, text (snd a))) (flat_map piece_anchors body) ++
      flat_map names subs
  end.

Section text.
  (** [ns]: the names of the book. *)
  Context (ns : list (string * string)).

  (** A reference without words of its own reads as the name of the only thing that
      has its tag; when there is none, or more than one, it says so. *)
  Definition called (tag : string) : string :=
    match List.filter (λ n, String.eqb (fst n) tag) ns with [n] => snd n | _ => "{broken reference: " +:+ tag +:+ "}" end.

  Fixpoint span_reads (w : span) : string :=
    match w with
    | Txt t => t
    | Sty _ l | Lnk l _ => sconcat (map span_reads l)
    | Img path _ => "{image: " +:+ path +:+ "}"
    | Ref tag [] => called tag
    | Ref _ l => sconcat (map span_reads l)
    | Anc _ _ => ""
    end.
  Definition line_reads (l : list span) : string := sconcat (map span_reads l).

  (** [para_string] joins lines by spaces, [list_string] writes items with bullets or
      numbers: see C58 for what they do with empty lines and line feeds. *)
  Definition piece_reads (p : piece) : string :=
    match p with
    | Par lines => para_string (map line_reads lines)
    | Lst ordered items => list_string ordered 0 (map line_reads items)
    | Cod lines => sconcat (map (λ l, line_reads l +:+ nls) lines)
    | Tbl rows => sconcat (map (λ row, "|" +:+ sconcat (map (λ l, " " +:+ line_reads l +:+ " |") row) +:+ nls) rows) +:+ nls
    | Dfs defs => sconcat (map (λ d, line_reads (fst d) +:+ ": " +:+ line_reads (snd d) +:+ nls) defs) +:+ nls
    | Toc => ""
    end.
  Definition body_reads (l : list piece) : string := sconcat (map piece_reads l).

  (** Every tag and anchor with its document: its address, its name, the text of the
      section it is in, how deep that section is, and the section's tag. *)
  Fixpoint documents (pl : place) (b : sec) : list (string * search_doc) :=
    match b with
    | Sec title _ _ _ body subs =>
        let doc url name := SearchDoc url name (body_reads body) (length (pl_number pl)) (main_tag b) in
        map (λ t, (t, doc (address pl b) (text title))) (tag_names b) ++
        map (λ a, (fst a, doc (pl_file pl +:+ "#" +:+ fst a) (text (snd a)))) (flat_map piece_anchors body) ++
        concat (mapi (λ k c, documents (sub_place pl b k c) c) 1 subs)
    end.
End text.

Definition book_documents (b : sec) : list (string * search_doc) := documents (names b) (top_place b) b.

(** The last of those with the same tag is the one kept. *)
Definition kept (docs : list (string * search_doc)) (tag : string) : option search_doc :=
  snd <$> last (List.filter (λ d, String.eqb (fst d) tag) docs).
