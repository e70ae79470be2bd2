(** Books: what the author of a book without plugins of their own has in mind, how
    it is written, and the pages one expects. A page is told from the book alone:
    no sections in memory, no pointers, no passes. *)
From Coq Require Import Ascii String.
From stdpp Require Import base list strings.
From Verif Require Import GoBase Ast Grammar Section Html.
Local Open Scope string_scope. Local Open Scope list_scope.

(** ** Books *)

Inductive look := Bold | Italic | Larger | Smaller | Strike | Superscript | Subscript | Code | Inset | Aside.

(** Words of a line. [Ref tag []] shows the title of what is referred to, [Anc tag []]
    is titled by its tag. *)
Inductive span :=
| Txt (t : string)
| Sty (k : look) (l : list span)
| Lnk (l : list span) (url : string)
| Img (path desc : string)
| Ref (tag : string) (l : list span)
| Anc (tag : string) (title : list span).

Inductive piece :=
| Par (lines : list (list span))
| Lst (ordered : bool) (items : list (list span))
| Cod (lines : list (list span))     (* a block of preformatted lines *)
| Tbl (rows : list (list (list span)))
| Dfs (defs : list (list span * list span))
| Toc.

(** What becomes of the subsections: they are below the section on its page, or have
    pages of their own, or are on its page but with headers as if they had. *)
Inductive cut := Whole | Pages | Fresh.
Definition cut_pages (c : cut) : bool := match c with Pages => true | _ => false end.
Definition cut_fresh (c : cut) : bool := match c with Whole => false | _ => true end.
Definition cut_single (c : cut) : bool := match c with Fresh => true | _ => false end.
Definition divided (split : bool) : cut := if split then Pages else Whole.
Coercion divided : bool >-> cut.

(** A section: its title, tags ([[]]: one made from the title), what becomes of its
    subsections, whether they are left out of tables of
    contents, its paragraphs and its subsections. *)
Inductive sec := Sec (title : list span) (tags : list string) (split : cut) (omit : bool) (body : list piece) (subs : list sec).

(** ** Their syntax trees *)

Definition look_function (k : look) : string :=
  match k with
  | Bold => "bold" | Italic => "italic" | Larger => "larger" | Smaller => "smaller" | Strike => "strike"
  | Superscript => "superscript" | Subscript => "subscript" | Code => "code" | Inset => "inset" | Aside => "aside"
  end.

Definition call (f : string) (args : list node) : node := NInvoke f args noloc.
Definition given (l : list node) : list node := match l with [] => [] | _ => [NSeq l] end.

Fixpoint span_tree (w : span) : node :=
  match w with
  | Txt t => NString t
  | Sty k l => call (look_function k) [NSeq (map span_tree l)]
  | Lnk l url => call "link" [NSeq (map span_tree l); NSeq [NString url]]
  | Img path desc => call "image" (NSeq [NString path] :: if String.eqb desc "" then [] else [NSeq [NString desc]])
  | Ref tag l => call "reference" (NSeq [NString tag] :: given (map span_tree l))
  | Anc tag l => call "target" (NSeq [NString tag] :: given (map span_tree l))
  end.

Definition line_tree (l : list span) : node := NSeq (map span_tree l).
(** A paragraph is a list of lines. *)
Definition piece_tree (p : piece) : list (list node) :=
  match p with
  | Par lines => map (map span_tree) lines
  | Lst ordered items => [[call (if ordered then "ordered-list" else "list") (map line_tree items)]]
  | Cod lines => [[call "code" [NPre (map (map span_tree) lines)]]]
  | Tbl rows => [[call "table" (map (λ row, NSeq [call "table-row" (map line_tree row)]) rows)]]
  | Dfs defs => [[call "definitions" (map (λ d, NSeq [call "definition" [line_tree (fst d); line_tree (snd d)]]) defs)]]
  | Toc => [[call "table-of-contents" []]]
  end.

Definition title_tree (title : list span) (tags : list string) : list (list node) :=
  [[call "title" (NSeq (map span_tree title) :: map (λ t, NSeq [NString t]) tags)]].

Fixpoint sec_tree (b : sec) : list (list (list node)) :=
  match b with
  | Sec title tags split omit body subs =>
      [title_tree title tags] ++
      (if cut_single split then [[[call "single-page" []]]] else []) ++
      (if cut_fresh split then [[[call "split-sections" []]]] else []) ++
      (if omit then [[[call "omit-children-from-table-of-contents" []]]] else []) ++
      map piece_tree body ++
      map (λ c, [[call "section" [NSeq (map NPara (sec_tree c))]]]) subs
  end.

(** ** Their tags *)

(** The text of words without references and anchors. *)
Fixpoint span_text (w : span) : string :=
  match w with
  | Txt t => t
  | Sty _ l | Lnk l _ => sconcat (map span_text l)
  | Img path _ => "{image: " +:+ path +:+ "}"
  | Ref _ _ | Anc _ _ => ""
  end.
Definition text (l : list span) : string := sconcat (map span_text l).

Definition tag_names (b : sec) : list string :=
  match b with
  | Sec title [] _ _ _ _ => [slug (text title)]
  | Sec _ tags _ _ _ _ => tags
  end.
Definition main_tag (b : sec) : string := hd "" (tag_names b).
Definition title_of (b : sec) : list span := match b with Sec t _ _ _ _ _ => t end.
Definition is_split (b : sec) : bool := match b with Sec _ _ s _ _ _ => cut_pages s end.
Definition is_fresh (b : sec) : bool := match b with Sec _ _ s _ _ _ => cut_fresh s end.
Definition subs_of (b : sec) : list sec := match b with Sec _ _ _ _ _ l => l end.

(** What can be referred to: its tag, its address and what a reference shows. *)
Record entry := Entry { en_tag : string; en_url : string; en_shown : string }.

(** Where a section is: its number (positions on the way from the top), how deep it
    is on its page, the page's file, and whether the page is its own. *)
Record place := Place { pl_number : list nat; pl_depth : nat; pl_file : string; pl_own : bool }.
Definition file_name (b : sec) : string := main_tag b +:+ ".html".
Definition top_place (b : sec) : place := Place [] 0 (file_name b) true.
(** The [k]-th subsection [c] of [b]. *)
Definition sub_place (pl : place) (b : sec) (k : nat) (c : sec) : place :=
  if is_split b then Place (pl_number pl ++ [k]) 0 (file_name c) true
  else Place (pl_number pl ++ [k]) (if is_fresh b then 0 else S (pl_depth pl)) (pl_file pl) false.
Definition address (pl : place) (b : sec) : string :=
  if pl_own pl then pl_file pl else pl_file pl +:+ "#" +:+ main_tag b.

(** A list with positions. *)
Section mapi.
  Context {A B : Type} (f : nat → A → B).
  Fixpoint mapi (k : nat) (l : list A) : list B :=
    match l with [] => [] | x :: l => f k x :: mapi (S k) l end.
End mapi.

(** ** Their pages *)

Definition look_marks (k : look) : string * string :=
  match k with
  | Bold => ("<strong>", "</strong>")
  | Italic => ("<em>", "</em>")
  | Larger => ("<span style=""font-size: 120%"">", "</span>")
  | Smaller => ("<span style=""font-size: 80%"">", "</span>")
  | Strike => ("<span style=""text-decoration: line-through"">", "</span>")
  | Superscript => ("<sup>", "</sup>")
  | Subscript => ("<sub>", "</sub>")
  | Code => ("<code>", "</code>")
  | Inset => ("<div style=""margin: 0 2em 1em"" class=""inset"">", "</div>")
  | Aside => ("<blockquote class=""aside"">", "</blockquote>")
  end.

Definition anchor_to (url shown : string) : string := "<a href=""" +:+ url_attr url +:+ """>" +:+ shown +:+ "</a>".

Section pages.
  (** Everything there is to refer to. *)
  Context (site : list entry).

  Definition refer (tag : string) : option entry :=
    match List.filter (λ e, String.eqb (en_tag e) tag) site with [e] => Some e | _ => None end.

  (** On the page in file [here]. A reference to what is not there, or there several
      times, is shown (if at all: see [book_fine]) as such. *)
  Fixpoint span_html (here : string) (w : span) : string :=
    match w with
    | Txt t => escape t
    | Sty k l => fst (look_marks k) +:+ sconcat (map (span_html here) l) +:+ snd (look_marks k)
    | Lnk l url => anchor_to url (sconcat (map (span_html here) l))
    | Img path desc => "<img src=""" +:+ url_attr path +:+ """ alt=""" +:+ escape desc +:+ """ />"
    | Ref tag l =>
        let '(url, shown) := match refer tag with
          | Some e => (en_url e, en_shown e)
          | None => (here +:+ "#broken", escape ("{broken reference: " +:+ tag +:+ "}"))
          end in
        anchor_to url (match l with [] => shown | _ => sconcat (map (span_html here) l) end)
    | Anc tag _ => "<a id=""" +:+ escape tag +:+ """></a>"
    end.
  Definition spans_html (here : string) (l : list span) : string := sconcat (map (span_html here) l).

  Definition piece_html (here contents : string) (p : piece) : string :=
    match p with
    | Par lines => "<p>" +:+ sjoin " " (map (spans_html here) lines) +:+ "</p>"
    | Lst ordered items => list_html ordered (map (spans_html here) items)
    | Cod lines => "<pre>" +:+ sjoin nls (map (spans_html here) lines) +:+ "</pre>"
    | Tbl rows => table_html (map (map (spans_html here)) rows)
    | Dfs defs => defs_html (map (λ d, (spans_html here (fst d), spans_html here (snd d))) defs)
    | Toc => contents
    end.

  Definition dotted (l : list nat) : string := sjoin "." (map dec l).

  (** The table of contents of [b]. *)
  Fixpoint toc (pl : place) (b : sec) : string :=
    match b with
    | Sec _ _ _ omit _ subs =>
        match subs with
        | [] => ""
        | _ =>
            if omit then ""
            else toc_html (mapi (λ k c, let pc := sub_place pl b k c in
                   (address pc c, dotted (pl_number pc), spans_html (pl_file pl) (title_of c), toc pc c)) 1 subs)
        end
    end.

  (** A section with those that are on the same page. *)
  Fixpoint sec_html (pl : place) (b : sec) : string :=
    match b with
    | Sec title _ split _ body subs =>
        section_html (dec (Nat.min 6 (S (pl_depth pl)))) (main_tag b)
          (match pl_number pl with [] => None | l => Some (dotted l) end)
          (spans_html (pl_file pl) title) (sconcat (map (piece_html (pl_file pl) (toc pl b)) body))
          (if cut_pages split then None else Some (mapi (λ k c, sec_html (sub_place pl b k c) c) 1 subs))
    end.

  Definition page_of (pl : place) (b : sec) : string := page_html (text (title_of b)) (sec_html pl b).

  (** The pages of the sections below [b], in order. *)
  Fixpoint pages_below (pl : place) (b : sec) : list (string * string) :=
    match b with
    | Sec _ _ split _ _ subs =>
        concat (mapi (λ k c, let pc := sub_place pl b k c in
          (if cut_pages split then [(file_name c, page_of pc c)] else []) ++ pages_below pc c) 1 subs)
    end.
End pages.

(** Anchors with their titles. *)
Definition anchor_title (tag : string) (l : list span) : list span :=
  match l with [] => [Txt tag] | _ => l end.
Fixpoint anchors (w : span) : list (string * list span) :=
  match w with
  | Txt _ | Img _ _ | Ref _ _ => []
  | Sty _ l | Lnk l _ => flat_map anchors l
  | Anc tag l => [(tag, anchor_title tag l)]
  end.
(** Everything in a paragraph, in order. *)
Definition piece_spans (p : piece) : list span :=
  match p with
  | Par lines | Lst _ lines | Cod lines => concat lines
  | Tbl rows => concat (map (@concat span) rows)
  | Dfs defs => concat (map (λ d, fst d ++ snd d) defs)
  | Toc => []
  end.
Definition piece_anchors (p : piece) : list (string * list span) := flat_map anchors (piece_spans p).

Fixpoint entries (pl : place) (b : sec) : list entry :=
  match b with
  | Sec title _ split _ body subs =>
      map (λ t, Entry t (address pl b) (spans_html [] "" title)) (tag_names b) ++
      map (λ a, Entry (fst a) (pl_file pl +:+ "#" +:+ fst a) (spans_html [] "" (snd a))) (flat_map piece_anchors body) ++
      concat (mapi (λ k c, entries (sub_place pl b k c) c) 1 subs)
  end.

Definition site (b : sec) : list entry := entries (top_place b) b.
Definition first_page (b : sec) : string := page_of (site b) (top_place b) b.
Definition pages (b : sec) : list (string * string) :=
  (file_name b, first_page b) :: pages_below (site b) (top_place b) b.

(** ** Which books *)

(** Without references and anchors. *)
Fixpoint plain_span (w : span) : bool :=
  match w with
  | Txt _ | Img _ _ => true
  | Sty _ l | Lnk l _ => forallb plain_span l
  | Ref _ _ | Anc _ _ => false
  end.
Definition some {A} (l : list A) : bool := match l with [] => false | _ => true end.

(** Nothing is missing: arguments and lines have something in them; what titles and
    references show is plain; tags that can be referred to are not empty. *)
Fixpoint span_fine (w : span) : bool :=
  match w with
  | Txt _ | Img _ _ => true
  | Sty _ l | Lnk l _ => some l && forallb span_fine l
  | Ref _ l => forallb plain_span l && forallb span_fine l
  | Anc tag l => negb (String.eqb tag "") && forallb plain_span l && forallb span_fine l
  end.
Definition line_fine (l : list span) : bool := some l && forallb span_fine l.
Definition piece_fine (p : piece) : bool :=
  match p with
  | Par lines => some lines && forallb line_fine lines
  | Lst _ items => forallb line_fine items
  | Cod lines => forallb line_fine lines
  | Tbl rows => forallb (forallb line_fine) rows
  | Dfs defs => forallb (λ d, line_fine (fst d) && line_fine (snd d)) defs
  | Toc => true
  end.
Fixpoint sec_fine (b : sec) : bool :=
  match b with
  | Sec title tags _ _ body subs =>
      some title && forallb plain_span title && forallb span_fine title &&
      negb (String.eqb (main_tag b) "") &&
      forallb piece_fine body && forallb sec_fine subs
  end.
(** No section has pages of their own for its subsections. *)
Fixpoint one_page (b : sec) : bool :=
  match b with Sec _ _ split _ _ subs => negb (cut_pages split) && forallb one_page subs end.
(** So it is below those on whose page they are though they might have them. *)
Fixpoint coherent (b : sec) : bool :=
  match b with Sec _ _ split _ _ subs => (negb (cut_single split) || forallb one_page subs) && forallb coherent subs end.

(** The tags referred to. *)
Fixpoint span_refs (w : span) : list string :=
  match w with
  | Txt _ | Img _ _ | Anc _ _ => []
  | Sty _ l | Lnk l _ => flat_map span_refs l
  | Ref tag _ => [tag]
  end.
Definition piece_refs (p : piece) : list string := flat_map span_refs (piece_spans p).
Fixpoint sec_refs (b : sec) : list string :=
  match b with Sec _ _ _ _ body subs => flat_map piece_refs body ++ flat_map sec_refs subs end.

(** Those on the page of [b], in order. *)
Fixpoint page_refs (b : sec) : list string :=
  match b with
  | Sec _ _ split _ body subs => flat_map piece_refs body ++ if cut_pages split then [] else flat_map page_refs subs
  end.
(** Page by page, in the order of [pages]. *)
Fixpoint refs_below (b : sec) : list (list string) :=
  match b with
  | Sec _ _ split _ _ subs => flat_map (λ c, (if cut_pages split then [page_refs c] else []) ++ refs_below c) subs
  end.
Definition pages_refs (b : sec) : list (list string) := page_refs b :: refs_below b.
(** Those of a list that are to nothing, or to several things. *)
Definition missing (site : list entry) (tags : list string) : list string :=
  List.filter (λ t, match refer site t with Some _ => false | None => true end) tags.
(** The error that says so. *)
Definition refused (site : list entry) (tag : string) (e : error) : Prop :=
  match List.filter (λ e, String.eqb (en_tag e) tag) site with
  | [] => ∃ similar l, e = EUnknownTag tag similar l
  | found => ∃ defs l, e = EAmbiguous tag defs l ∧ length defs = length found
  end.

(** Every reference is to something of which there is exactly one. *)
Definition book_fine (b : sec) : Prop :=
  sec_fine b = true ∧ ∀ tag, tag ∈ sec_refs b → ∃ e, refer (site b) tag = Some e.

(** ** Directories *)

(** What is in file [f] after writing the pages [ps] in order. *)
Definition put (f : string) (old : option string) (ps : list (string * string)) : option string :=
  fold_left (λ o p, if String.eqb (fst p) f then Some (snd p) else o) ps old.
