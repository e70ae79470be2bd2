(** What the pages of the documentation should look like, given how contents are
    rendered: docs/html. *)
From Coq Require Import Ascii String.
From stdpp Require Import base relations strings list.
From Verif Require Import GoBase Ast Content Section TreeSpec Render Html Props_Refs MembersSpec.
Local Open Scope string_scope. Local Open Scope list_scope.

(** An entry of the navigation bar. *)
Definition nav_entry (current : bool) (u title : string) : string :=
  nls +:+ "          <li" +:+ (if current then " class=""current""" else "") +:+ "><a href=""" +:+ url_attr u +:+ """>" +:+ title +:+
  "</a></li>" +:+ nls +:+ "        ".

(** A page: its title, whether it is the front page, the address of the front page,
    the navigation bar and the section itself. *)
Definition site_page (title : string) (front : bool) (home : string) (nav : list string) (body : string) : string :=
  "<!DOCTYPE html>" +:+ nls +:+
  "<html>" +:+ nls +:+
  "  <head>" +:+ nls +:+
  "    <meta http-equiv=""content-type"" content=""text/html; charset=utf-8"" />" +:+ nls +:+
  "    <meta name=""viewport"" content=""width=device-width"" />" +:+ nls +:+
  "    <title>" +:+ escape title +:+ "</title>" +:+ nls +:+
  "    <link rel=""stylesheet"" type=""text/css"" href=""css/iosevka.css"" />" +:+ nls +:+
  "    <link rel=""stylesheet"" type=""text/css"" href=""css/booklit.css"" />" +:+ nls +:+
  "    <link rel=""shortcut icon"" type=""image/x-icon"" href=""favicon.ico"" />" +:+ nls +:+
  "  </head>" +:+ nls +:+
  "  <body>" +:+ nls +:+
  "    <div class=""page" +:+ (if front then " top" else "") +:+ """>" +:+ nls +:+
  "      <div class=""page-header"">" +:+ nls +:+
  "        <a href=""" +:+ url_attr home +:+ """>Booklit</a>" +:+ nls +:+
  "        <p class=""tagline"">the little static site engine that could</p>" +:+ nls +:+
  "      </div>" +:+ nls +:+ nls +:+
  "      <nav class=""top-nav"">" +:+ nls +:+
  "        <ul>" +:+ nls +:+
  "        " +:+ sconcat nav +:+ nls +:+
  "        </ul>" +:+ nls +:+
  "      </nav>" +:+ nls +:+ nls +:+
  "      " +:+ body +:+ nls +:+
  "    </div>" +:+ nls +:+
  "    <script data-goatcounter=""https://booklit.goatcounter.com/count"" async src=""//gc.zgo.at/count.js""></script>" +:+ nls +:+
  "  </body>" +:+ nls +:+
  "</html>".

(** A section: the level of its heading, its name, its number with its address
    unless it is the top one, its title and body and the sections in it. *)
Definition site_section (level : nat) (name : string) (number : option (string * string)) (title body : string) (below : option (list string)) : string :=
  "<h" +:+ dec level +:+ " class=""section-header""><a id=""" +:+ escape name +:+ """></a>" +:+
  match number with
  | Some (u, n) => "<span class=""section-number""><a href=""" +:+ url_attr u +:+ """>" +:+ escape n +:+ "</a> </span>"
  | None => ""
  end +:+ title +:+ "</h" +:+ dec level +:+ ">" +:+ nls +:+ nls +:+ body +:+ nls +:+ nls +:+
  match below with
  | Some l => nls +:+ "  " +:+ sconcat (map (λ s, nls +:+ "    " +:+ s +:+ nls +:+ "  ") l) +:+ nls
  | None => ""
  end.

(** The styles that put something around the content. *)
Definition site_wraps : list (string * (string * string)) :=
  [("big-code", ("<code class=""big"">", "</code>")); ("code-block", ("<div class=""highlight"">", "</div>"));
   ("code-flow", ("<code class=""highlight"">", "</code>")); ("column-header", ("<div class=""column-header"">", "</div>"));
   ("lit-block", ("<div class=""lit-syntax"">", "</div>")); ("lit-flow", ("<code class=""highlight"">", "</code>"));
   ("syntax-hl", ("<span class=""syntax-hl"">", "</span>")); ("tagline", ("<blockquote class=""tagline"">", "</blockquote>"))].

Definition site_columns (title : string) (cols : list string) : string :=
  "<div class=""columns"">" +:+ nls +:+
  "  <div class=""column title"">" +:+ title +:+ "</div>" +:+ nls +:+
  "  " +:+ sconcat (map (λ s, nls +:+ "  <div class=""column"">" +:+ s +:+ "</div>" +:+ nls +:+ "  ") cols) +:+ nls +:+
  "</div>".
Definition site_definition (thumb content : string) : string :=
  "<div class=""definition"">" +:+ nls +:+
  "  <pre class=""definition-thumb"">" +:+ thumb +:+ "</pre>" +:+ nls +:+ nls +:+
  "  <div class=""definition-content"">" +:+ nls +:+
  "    " +:+ content +:+ nls +:+
  "  </div>" +:+ nls +:+
  "</div>".
Definition site_frame (u : string) : string :=
  "<iframe class=""output-frame"" scrolling=""no"" src=""" +:+ url_attr u +:+ """></iframe>".

Section spec.
  Variable h : heap.
  (** How contents are rendered and what they say. *)
  Variable shows : content → string → Prop.
  Variable text : content → outcome error string.

  (** The address of a section. *)
  Definition reached (c : nat) (u : string) : Prop :=
    ∃ x, h !! c = Some x ∧ s_primary x ∈ s_tags x ∧ address h "html" c (t_anchor (s_primary x)) u.

  (** The entry for chapter [c] on the page of [i]. *)
  Definition nav_for (i c : nat) (s : string) : Prop :=
    ∃ x b u t title, h !! c = Some x ∧ (b = true ↔ descendant h c i) ∧ reached c u ∧ strip_aux (s_title x) = Some t ∧ shows t title ∧
      s = nav_entry b u title.

  (** The page of section [i] in the book [r]. *)
  Definition page_for (r i : nat) (out : string) : Prop :=
    ∃ s rs title home nav body, h !! i = Some s ∧ h !! r = Some rs ∧ text (s_title s) = Ok title ∧ reached r home ∧
      Forall2 (nav_for i) (s_children rs) nav ∧ shows (CSection i) body ∧
      out = site_page title (bool_decide (i = r)) home nav body.

  (** Steps up to the first section that starts headings again. *)
  Definition heading_level (i d : nat) : Prop :=
    ∃ a k, nsteps (λ x y, parent_of h x y ∧ ∀ xs, h !! x = Some xs → s_reset xs = false) k a i ∧
      (is_top h a ∨ ∃ p ps, parent_of h p a ∧ h !! p = Some ps ∧ s_reset ps = true) ∧ d = Nat.min 6 (S k).

  (** Section [i]. *)
  Definition section_for (r i : nat) (out : string) : Prop :=
    ∃ s d num title body below, h !! i = Some s ∧ heading_level i d ∧
      (if bool_decide (i = r) then num = None
       else ∃ u l, num = Some (u, sjoin "." (map dec l)) ∧ reached i u ∧ position h i l) ∧
      shows (s_title s) title ∧ shows (s_body s) body ∧
      (if s_split s then below = None else ∃ l, below = Some l ∧ Forall2 (λ c, shows (CSection c)) (s_children s) l) ∧
      out = site_section d (t_name (s_primary s)) num title body below.

  (** A reference made in section [sec]. *)
  Definition referring (broken : bool) (sec : nat) (name : string) (rc : option content) (opt : bool) (l : loc) (out : string) : Prop :=
    (∃ t i u c c' s, refers h broken sec name opt l (Some t) ∧ t_section t = Some i ∧ address h "html" i (t_anchor t) u ∧
      match rc with Some x => x = c | None => t_title t = Some c end ∧ strip_aux c = Some c' ∧ shows c' s ∧
      out = "<a href=""" +:+ url_attr u +:+ """>" +:+ s +:+ "</a>") ∨
    (∃ c c', refers h broken sec name opt l None ∧ rc = Some c ∧ strip_aux c = Some c' ∧ shows c' out).

  (** A table of contents: address, number, title and the table of each section below. *)
  Definition toc_entry (c : nat) (e : string * string * string * string) : Prop :=
    ∃ x l c', h !! c = Some x ∧ reached c e.1.1.1 ∧ position h c l ∧ e.1.1.2 = sjoin "." (map dec l) ∧
      strip_aux (s_title x) = Some c' ∧ shows c' e.1.2 ∧ shows (CToc c) e.2.
  Definition toc_for (i : nat) (out : string) : Prop :=
    ∃ s, h !! i = Some s ∧
      (out = "" ∧ (s_children s = [] ∨ s_omit s = true) ∨
       s_children s ≠ [] ∧ s_omit s = false ∧ ∃ es, Forall2 toc_entry (s_children s) es ∧ out = toc_html es).
End spec.
