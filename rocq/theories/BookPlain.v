(** What a book (Book.v) looks like as plain text, and which books have one: the
    text engine comes with templates for sections, tables of contents, paragraphs,
    lines, text, insets and preformatted text only. *)
From Coq Require Import Ascii String.
From stdpp Require Import base list strings.
From Verif Require Import GoBase Section Html Book.
Local Open Scope string_scope. Local Open Scope list_scope.

(** Every line indented. *)
Definition indented (s : string) : string := sjoin nls (map (λ l, "    " +:+ l) (ssplit "010" s)).

Fixpoint span_plain (w : span) : string :=
  match w with
  | Txt t => t
  | Sty _ l => indented (sconcat (map span_plain l))
  | _ => ""
  end.
Definition spans_plain (l : list span) : string := sconcat (map span_plain l).
(** Lines follow one another with a space, paragraphs are followed by an empty line. *)
Definition piece_plain (contents : string) (p : piece) : string :=
  match p with
  | Par lines => sjoin " " (map spans_plain lines) +:+ nls +:+ nls
  | Toc => contents
  | _ => ""
  end.

(** [number]: the positions on the way to the section. *)
Fixpoint toc_plain (number : list nat) (b : sec) : string :=
  match b with
  | Sec _ _ _ omit _ subs =>
      match subs with
      | [] => ""
      | _ => if omit then "" else
          nls +:+ sconcat (mapi (λ k c, nls +:+ dotted (number ++ [k]) +:+ " " +:+ spans_plain (title_of c) +:+ nls +:+ nls +:+
                                        toc_plain (number ++ [k]) c +:+ nls) 1 subs) +:+ nls
      end
  end.
(** The body follows the title at once. *)
Fixpoint sec_plain (number : list nat) (b : sec) : string :=
  match b with
  | Sec title _ split _ body subs =>
      match number with [] => "" | _ => dotted number +:+ " " end +:+ spans_plain title +:+
      sconcat (map (piece_plain (toc_plain number b)) body) +:+ nls +:+ nls +:+
      if cut_pages split then "" else nls +:+ sconcat (mapi (λ k c, nls +:+ sec_plain (number ++ [k]) c +:+ nls) 1 subs) +:+ nls
  end.
Definition page_plain (number : list nat) (b : sec) : string := text (title_of b) +:+ nls +:+ nls +:+ sec_plain number b.

(** ** What there is no template for *)

(** The templates that are missing, in the order they are asked for. *)
Fixpoint span_lacks (w : span) : list string :=
  match w with
  | Txt _ => []
  | Sty k l =>
      match k with
      | Inset => flat_map span_lacks l
      | Bold => ["bold"] | Italic => ["italic"] | Larger => ["larger"] | Smaller => ["smaller"] | Strike => ["strike"]
      | Superscript => ["superscript"] | Subscript => ["subscript"] | Code => ["verbatim"] | Aside => ["aside"]
      end
  | Lnk _ _ => ["link"]
  | Img _ _ => ["image"]
  | Ref _ _ => ["reference"]
  | Anc _ _ => ["target"]
  end.
Definition piece_lacks (contents : list string) (p : piece) : list string :=
  match p with
  | Par lines => flat_map (flat_map span_lacks) lines
  | Lst _ _ => ["list"]
  | Cod _ => ["verbatim"]
  | Tbl _ => ["table"]
  | Dfs _ => ["definitions"]
  | Toc => contents
  end.
Fixpoint toc_lacks (b : sec) : list string :=
  match b with
  | Sec _ _ _ omit _ subs => if omit then [] else flat_map (λ c, flat_map span_lacks (title_of c) ++ toc_lacks c) subs
  end.
Fixpoint sec_lacks (b : sec) : list string :=
  match b with
  | Sec title _ split _ body subs =>
      flat_map span_lacks title ++ flat_map (piece_lacks (toc_lacks b)) body ++ if cut_pages split then [] else flat_map sec_lacks subs
  end.

(** ** The pages, with what is missing for them *)

Section files.
  Context (ext : string).
  Definition plain_file (b : sec) : string := main_tag b +:+ "." +:+ ext.
  Fixpoint plain_below (number : list nat) (b : sec) : list (string * string * list string) :=
    match b with
    | Sec _ _ split _ _ subs =>
        concat (mapi (λ k c, (if cut_pages split then [(plain_file c, page_plain (number ++ [k]) c, sec_lacks c)] else []) ++
                             plain_below (number ++ [k]) c) 1 subs)
    end.
  Definition plain_pages (b : sec) : list (string * string * list string) :=
    (plain_file b, page_plain [] b, sec_lacks b) :: plain_below [] b.
End files.

(** The pages before the first one for which a template is missing, and that one's file. *)
Fixpoint written (qs : list (string * string * list string)) : list (string * string) * option string :=
  match qs with
  | [] => ([], None)
  | (f, page, []) :: qs => let '(l, r) := written qs in ((f, page) :: l, r)
  | (f, _, _ :: _) :: _ => ([], Some f)
  end.
