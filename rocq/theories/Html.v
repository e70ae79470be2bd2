(** Rendering with the bundled HTML templates: render/html.go and
    render/html/*.tmpl as compiled into render/html/bindata.go, with the escaping
    of Go's html/template package.

    The templates are written out as the strings they emit; trailing line feeds
    of a template are trimmed (render/html.go:71). The compiled reference.tmpl
    has the same meaning as the one in the source tree. An error of any kind,
    including a panic inside a function or method called from a template, which
    text/template turns into an error, is an [rerr]. What had been written before
    the error is not modelled, nor is the limit of 100000 nested template
    invocations. *)
From Coq Require Import Ascii String.
From stdpp Require Import base strings list.
From Verif Require Import GoBase Ast Content Section Render.
Local Open Scope string_scope. Local Open Scope list_scope.

Inductive rerr :=
| RTemplate (name : string)   (* no such template, or one not meant for the data *)
| RTag (e : error)            (* a reference that does not resolve *)
| RLazy                       (* lazy content that fails *)
| RNil.                       (* nil dereference *)

Notation rendered := (outcome rerr string).

(** ** Escaping (html/template) *)

(** html/template/html.go [htmlReplacementTable], used for text, for text of a
    title element and for quoted attribute values. *)
Definition escape_char (c : ascii) : string :=
  if Ascii.eqb c "000" then String "239" (String "191" (String "189" ""))
  else if Ascii.eqb c """" then "&#34;"
  else if Ascii.eqb c "&" then "&amp;"
  else if Ascii.eqb c "'" then "&#39;"
  else if Ascii.eqb c "+" then "&#43;"
  else if Ascii.eqb c "<" then "&lt;"
  else if Ascii.eqb c ">" then "&gt;"
  else String c "".
Fixpoint escape (s : string) : string :=
  match s with "" => "" | String c s => escape_char c +:+ escape s end.

Fixpoint before_colon (s : string) : option string :=
  match s with
  | "" => None
  | String c s => if Ascii.eqb c ":" then Some "" else p ← before_colon s; Some (String c p)
  end.

(** html/template/url.go [isSafeURL]. [strings.EqualFold] folds ASCII letters,
    and the long s (U+017F) to s. *)
Definition safe_protocol (p : string) : bool :=
  let l := smap lower p in
  String.eqb l "http" || String.eqb l "https" || String.eqb l "mailto" ||
  String.eqb l ("http" +:+ String "197" (String "191" "")).
Definition is_safe_url (s : string) : bool :=
  match before_colon s with
  | Some p => negb (sforall (λ c, negb (Ascii.eqb c "/")) p) || safe_protocol p
  | None => true
  end.

(** html/template/url.go [urlFilter]. *)
Definition url_filter (s : string) : string := if is_safe_url s then s else "#ZgotmplZ".

Definition is_hex (c : ascii) : bool :=
  is_digit c || (Nat.leb 97 (code c) && Nat.leb (code c) 102) || (Nat.leb 65 (code c) && Nat.leb (code c) 70).
Definition hex_digit (n : nat) : ascii := ascii_of_nat (if Nat.ltb n 10 then 48 + n else 87 + n).
Definition percent (c : ascii) : string :=
  String "%" (String (hex_digit (code c / 16)) (String (hex_digit (code c mod 16)) "")).
Definition url_keep (c : ascii) : bool :=
  is_lower c || is_upper c || is_digit c ||
  existsb (Ascii.eqb c) ["!"; "#"; "$"; "&"; "*"; "+"; ","; "/"; ":"; ";"; "="; "?"; "@"; "["; "]"; "-"; "."; "_"; "~"]%char.

(** html/template/url.go [processURLOnto] with [norm]. *)
Fixpoint url_normalize (s : string) : string :=
  match s with
  | "" => ""
  | String c r =>
      if url_keep c then String c (url_normalize r)
      else if Ascii.eqb c "%" &&
              match r with String a (String b _) => is_hex a && is_hex b | _ => false end
      then String c (url_normalize r)
      else percent c +:+ url_normalize r
  end.

(** An action alone in a quoted attribute value, for URL attributes and others. *)
Definition url_attr (s : string) : string := escape (url_normalize (url_filter s)).

(** ** Templates *)

(** aside, bold, inset, italic, larger, smaller, strike, subscript, superscript,
    verbatim: what surrounds the content. *)
Definition styled_wrap (style : string) (flow : bool) : option (string * string) :=
  if String.eqb style "aside" then Some ("<blockquote class=""aside"">", "</blockquote>")
  else if String.eqb style "bold" then Some ("<strong>", "</strong>")
  else if String.eqb style "inset" then Some ("<div style=""margin: 0 2em 1em"" class=""inset"">", "</div>")
  else if String.eqb style "italic" then Some ("<em>", "</em>")
  else if String.eqb style "larger" then Some ("<span style=""font-size: 120%"">", "</span>")
  else if String.eqb style "smaller" then Some ("<span style=""font-size: 80%"">", "</span>")
  else if String.eqb style "strike" then Some ("<span style=""text-decoration: line-through"">", "</span>")
  else if String.eqb style "subscript" then Some ("<sub>", "</sub>")
  else if String.eqb style "superscript" then Some ("<sup>", "</sup>")
  else if String.eqb style "verbatim" then
    Some (if flow then ("<code>", "</code>") else ("<pre>", "</pre>"))
  else None.

(** list.tmpl *)
Definition list_html (ordered : bool) (items : list string) : string :=
  let t := if ordered then "ol" else "ul" in
  "<" +:+ t +:+ ">" +:+ nls +:+
  sconcat (map (λ s, nls +:+ "  <li>" +:+ s +:+ "</li>" +:+ nls) items) +:+
  nls +:+ "</" +:+ t +:+ ">".

(** table.tmpl *)
Definition table_html (rows : list (list string)) : string :=
  "<table>" +:+ nls +:+ "  " +:+
  sconcat (map (λ row, nls +:+ "  <tr>" +:+ nls +:+ "    " +:+
    sconcat (map (λ s, nls +:+ "    <td>" +:+ s +:+ "</td>" +:+ nls +:+ "    ") row) +:+
    nls +:+ "  </tr>" +:+ nls +:+ "  ") rows) +:+
  nls +:+ "</table>".

(** definitions.tmpl *)
Definition defs_html (defs : list (string * string)) : string :=
  "<dl>" +:+ nls +:+ "  " +:+
  sconcat (map (λ d, match d with (s, d) =>
    nls +:+ "  <dt>" +:+ s +:+ "</dt>" +:+ nls +:+ "    <dd>" +:+ d +:+ "</dd>" +:+ nls +:+ "  " end) defs) +:+
  nls +:+ "</dl>".

(** page.tmpl *)
Definition page_html (title body : string) : string :=
  "<!DOCTYPE html>" +:+ nls +:+ "<html>" +:+ nls +:+ "  <head>" +:+ nls +:+
  "    <meta http-equiv=""content-type"" content=""text/html; charset=utf-8"" />" +:+ nls +:+
  "    <title>" +:+ escape title +:+ "</title>" +:+ nls +:+ "  </head>" +:+ nls +:+ "  <body>" +:+ nls +:+
  "    " +:+ body +:+ nls +:+ "  </body>" +:+ nls +:+ "</html>".

(** section.tmpl; [number] is given if there is a parent, [children] if they are
    not split off. *)
Definition section_html (depth : string) (name : string) (number : option string) (title body : string)
    (children : option (list string)) : string :=
  "<h" +:+ depth +:+ " class=""section-header""><a id=""" +:+ escape name +:+ """></a>" +:+
  match number with
  | Some n => "<span class=""section-number"">" +:+ escape n +:+ " </span>"
  | None => ""
  end +:+ title +:+ "</h" +:+ depth +:+ ">" +:+ nls +:+ nls +:+ body +:+ nls +:+ nls +:+
  match children with
  | Some cs => nls +:+ "  " +:+ sconcat (map (λ s, nls +:+ "    " +:+ s +:+ nls +:+ "  ") cs) +:+ nls
  | None => ""
  end.

(** toc.tmpl, when there is something to list; the entries are URL, number,
    title and the nested table. *)
Definition toc_html (entries : list (string * string * string * string)) : string :=
  nls +:+ "<nav>" +:+ nls +:+ "  <ul>" +:+ nls +:+ "  " +:+
  sconcat (map (λ e, match e with (u, n, t, sub) =>
    nls +:+ "    <li>" +:+ nls +:+ "      " +:+
    ("<a href=""" +:+ url_attr u +:+ """>" +:+ escape n +:+ " " +:+ t +:+ "</a>") +:+ nls +:+ nls +:+
    "      " +:+ sub +:+ nls +:+ "    </li>" +:+ nls +:+ "  " end) entries) +:+
  nls +:+ "  </ul>" +:+ nls +:+ "</nav>" +:+ nls.

(** ** Rendering *)

Definition need {A} (o : option A) (f : A → rendered) : rendered :=
  match o with Some a => f a | None => Err RNil end.

Section html.
  Context (similar : string → string → bool) (broken : bool) (h : heap).
  (** What forcing a lazy content gives; [None]: an error or nil. *)
  Context (force : nat → option content).
  (** The [String] method; it may not terminate. *)
  Context (str : content → outcome error string).

  Definition text_of (c : content) (f : string → rendered) : rendered :=
    match str c with Ok s => f s | NoFuel => NoFuel | _ => Err RNil end.

  (** toc.tmpl. *)
  Definition toc_tmpl (jump : content → rendered) (i : nat) : rendered :=
    need (h !! i) (λ s,
      match s_children s with
      | [] => Ok ""
      | cs =>
        if s_omit s then Ok ""
        else
          obind (λ es, Ok (toc_html es))
            (omapM (λ c,
               match h !! c with
               | None => Err RNil
               | Some cs =>
                 match tag_url h "html" (s_primary cs), number h c, strip_aux (s_title cs) with
                 | Some u, Some n, Some t =>
                   obind (λ t, obind (λ sub, Ok (u, n, t, sub)) (jump (CToc c))) (jump t)
                 | _, _, _ => Err RNil
                 end
               end) cs)
      end).

  (** section.tmpl. *)
  Definition section_tmpl (jump : content → rendered) (i : nat) : rendered :=
    need (h !! i) (λ s,
      match header_depth h i, number h i with
      | Some d, Some n =>
        obind (λ title, obind (λ body,
          if s_split s then
            Ok (section_html (dec d) (t_name (s_primary s)) (match s_parent s with Some _ => Some n | None => None end)
                  title body None)
          else
            obind (λ cs, Ok (section_html (dec d) (t_name (s_primary s))
                               (match s_parent s with Some _ => Some n | None => None end) title body (Some cs)))
              (omapM (λ c, jump (CSection c)) (s_children s)))
          (jump (s_body s))) (jump (s_title s))
      | _, _ => Err RNil
      end).

  (** page.tmpl. *)
  Definition page_tmpl (jump : content → rendered) (i : nat) : rendered :=
    need (h !! i) (λ s, text_of (s_title s) (λ t, obind (λ b, Ok (page_html t b)) (jump (CSection i)))).

  (** render/html.go:204-213 [VisitSection]: the section's style names the
      template. Of the bundled ones only these can be executed with a section. *)
  Definition visit_section (jump : content → rendered) (i : nat) : rendered :=
    need (h !! i) (λ s,
      let style := s_style s in
      if String.eqb style "" || String.eqb style "section" then section_tmpl jump i
      else if String.eqb style "page" then page_tmpl jump i
      else if String.eqb style "toc" then toc_tmpl jump i
      else if String.eqb style "string" then text_of (CSection i) (λ t, Ok (escape t))
      else if String.eqb style "raw-html" then text_of (CSection i) Ok
      else Err (RTemplate style)).

  (** reference.tmpl. [Display] (reference.go:65-76) resolves the tag again, with the same result. *)
  Definition reference_tmpl (jump : content → rendered) (sec : nat) (name : string) (rc : option content)
      (opt : bool) (l : loc) : rendered :=
    match ref_tag similar broken h sec name opt l with
    | Ok (Some t) =>
      match tag_url h "html" t,
        (match ref_display similar broken h sec name rc opt l with Ok d => d | _ => None end) ≫= strip_aux with
      | Some u, Some d =>
        obind (λ s, Ok ("<a href=""" +:+ url_attr u +:+ """>" +:+ s +:+ "</a>")) (jump d)
      | _, _ => Err RNil
      end
    | Ok None => need (rc ≫= strip_aux) jump
    | Err e => Err (RTag e)
    | Panic => Err RNil
    | NoFuel => NoFuel
    end.

  (** render/html.go:191-304 [Visit...] followed by [render]; [jump] renders
      content that is not a part of the given one. *)
  Fixpoint html_F (jump : content → rendered) (c : content) : rendered :=
    let rec := html_F jump in
    match c with
    | CString s => Ok (escape s)
    | CSeq l => obind (λ ss, Ok (sconcat ss)) (omapM rec l)
    | CPara l => obind (λ ss, Ok ("<p>" +:+ sjoin " " ss +:+ "</p>")) (omapM rec l)
    | CPre l => obind (λ ss, Ok (sjoin nls ss)) (omapM rec l)
    | CRef sec name rc opt l => reference_tmpl jump sec name rc opt l
    | CLink x t => obind (λ s, Ok ("<a href=""" +:+ url_attr t +:+ """>" +:+ s +:+ "</a>")) (rec x)
    | CSection i => visit_section jump i
    | CToc i => toc_tmpl jump i
    | CStyled st b x ps =>
      match styled_wrap st (is_flow c) with
      | Some (pre, post) => obind (λ s, Ok (pre +:+ s +:+ post)) (rec x)
      | None =>
        if String.eqb st "string" then text_of c (λ t, Ok (escape t))
        else if String.eqb st "raw-html" then text_of c Ok
        else Err (RTemplate st)
      end
    | CTarget t _ _ _ => Ok ("<a id=""" +:+ escape t +:+ """></a>")
    | CImage p d => Ok ("<img src=""" +:+ url_attr p +:+ """ alt=""" +:+ escape d +:+ """ />")
    | CList l o => obind (λ ss, Ok (list_html o ss)) (omapM rec l)
    | CTable rows => obind (λ rs, Ok (table_html rs)) (omapM (λ row, omapM rec row) rows)
    | CDefs defs =>
      obind (λ ds, Ok (defs_html ds))
        (omapM (λ p : content * content, match p with (s, d) => obind (λ s, obind (λ d, Ok (s, d)) (rec d)) (rec s) end) defs)
    | CLazy _ t => match force t with Some x => jump x | None => Err RLazy end
    | CAux x => rec x
    end.

  (** [n] bounds the number of jumps; without bound Go overflows its stack. *)
  Fixpoint html (n : nat) (c : content) : rendered :=
    match n with
    | 0 => html_F (λ _, NoFuel) c
    | S n => html_F (html n) c
    end.

  (** render/html.go:168-189 [RenderSection]: no bundled template is named
      (Style)-page.tmpl, so it is always page.tmpl. *)
  Definition html_page (n : nat) (i : nat) : rendered := page_tmpl (html n) i.
End html.
