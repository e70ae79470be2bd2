(** render/text.go and the bundled templates render/text/*.tmpl (bindata.go was
    checked to contain the same). Templates are written out as the strings they
    emit; trailing newlines of a template are cut (text.go:50). *)
From Coq Require Import Ascii String.
From stdpp Require Import base strings list.
From Verif Require Import GoBase Ast Content Section Render Html.
Local Open Scope string_scope.
Local Open Scope list_scope.

(** text.go:38-40 [joinLines "    "]: splitting at newlines and joining with a
    newline and the prefix puts the prefix after every newline. *)
Fixpoint join_lines (prefix : string) (s : string) : string :=
  match s with
  | "" => ""
  | String c s => if Ascii.eqb c "010" then nls +:+ prefix +:+ join_lines prefix s else String c (join_lines prefix s)
  end.

(** section.tmpl: [-}}] cuts the empty line between title and body. *)
Definition section_text (number : option string) (title body : string) (children : option (list string)) : string :=
  match number with Some n => n +:+ " " | None => "" end +:+ title +:+ body +:+ nls +:+ nls +:+
  match children with
  | Some cs => nls +:+ sconcat (map (λ s, nls +:+ s +:+ nls) cs) +:+ nls
  | None => ""
  end.

(** toc.tmpl, when there is something to list; the entries are number, title and
    the nested table. *)
Definition toc_text (entries : list (string * string * string)) : string :=
  nls +:+ sconcat (map (λ e, match e with (n, t, sub) => nls +:+ n +:+ " " +:+ t +:+ nls +:+ nls +:+ sub +:+ nls end) entries)
  +:+ nls.

Section text.
  Context (h : heap).
  (** As in Html.v. *)
  Context (force : nat → option content) (str : content → outcome error string).

  (** toc.tmpl; it is executed with a section and includes itself. *)
  Definition toc_text_tmpl (jump : content → rendered) (i : nat) : rendered :=
    need (h !! i) (λ s,
      match s_children s with
      | [] => Ok ""
      | cs =>
        if s_omit s then Ok ""
        else
          obind (λ es, Ok (toc_text es))
            (omapM (λ c,
               match h !! c with
               | None => Err RNil
               | Some cs =>
                 match number h c, strip_aux (s_title cs) with
                 | Some n, Some t => obind (λ t, obind (λ sub, Ok (n, t, sub)) (jump (CToc c))) (jump t)
                 | _, _ => Err RNil
                 end
               end) cs)
      end).

  (** section.tmpl. *)
  Definition section_text_tmpl (jump : content → rendered) (i : nat) : rendered :=
    need (h !! i) (λ s,
      need (match s_parent s with Some _ => n ← number h i; Some (Some n) | None => Some None end) (λ number,
        obind (λ title, obind (λ body,
          if s_split s then Ok (section_text number title body None)
          else obind (λ cs, Ok (section_text number title body (Some cs))) (omapM (λ c, jump (CSection c)) (s_children s)))
          (jump (s_body s))) (jump (s_title s)))).

  (** page.tmpl. *)
  Definition page_text_tmpl (jump : content → rendered) (i : nat) : rendered :=
    need (h !! i) (λ s, text_of str (s_title s) (λ t, obind (λ b, Ok (t +:+ nls +:+ nls +:+ b)) (jump (CSection i)))).

  (** text.go:194-202 [VisitSection]: the style names the template. Of the bundled
      ones only these can be executed with a section. *)
  Definition visit_section_text (jump : content → rendered) (i : nat) : rendered :=
    need (h !! i) (λ s,
      let style := s_style s in
      if String.eqb style "" || String.eqb style "section" then section_text_tmpl jump i
      else if String.eqb style "page" then page_text_tmpl jump i
      else if String.eqb style "toc" then toc_text_tmpl jump i
      else if String.eqb style "string" then text_of str (CSection i) Ok
      else Err (RTemplate style)).

  (** text.go:179-276 [Visit...], [setTmpl], followed by [render], 292-310
      [subRender]. There are no templates for most contents. *)
  Fixpoint text_F (jump : content → rendered) (c : content) : rendered :=
    let rec := text_F jump in
    match c with
    | CString s => Ok s
    | CSeq l => obind (λ ss, Ok (sconcat ss)) (omapM rec l)
    | CPara l => obind (λ ss, Ok (sjoin " " ss +:+ nls +:+ nls)) (omapM rec l)
    | CPre l => obind (λ ss, Ok (sjoin nls ss)) (omapM rec l)
    | CSection i => visit_section_text jump i
    | CToc i => toc_text_tmpl jump i
    | CStyled st b x ps =>
      if String.eqb st "inset" then obind (λ s, Ok ("    " +:+ join_lines "    " s)) (rec x)
      else if String.eqb st "string" then text_of str c Ok
      else Err (RTemplate st)
    | CRef _ _ _ _ _ => Err (RTemplate "reference")
    | CLink _ _ => Err (RTemplate "link")
    | CTarget _ _ _ _ => Err (RTemplate "target")
    | CImage _ _ => Err (RTemplate "image")
    | CList _ _ => Err (RTemplate "list")
    | CTable _ => Err (RTemplate "table")
    | CDefs _ => Err (RTemplate "definitions")
    | CLazy _ t => match force t with Some x => jump x | None => Err RLazy end
    | CAux x => rec x
    end.

  (** [n] bounds the number of jumps. *)
  Fixpoint text (n : nat) (c : content) : rendered :=
    match n with
    | 0 => text_F (λ _, NoFuel) c
    | S n => text_F (text n) c
    end.

  (** text.go:160-176 [RenderSection]: no bundled template is named
      (Style)-page.tmpl, and unlike HTML there is no other to fall back to. *)
  Definition text_page (n : nat) (i : nat) : rendered :=
    need (h !! i) (λ s,
      if String.eqb (s_style s) "" then page_text_tmpl (text n) i else Err (RTemplate (s_style s +:+ "-page"))).
End text.
