(** errors.go and booklitcmd/main.go: what is told about an error, on the terminal and
    as a page. *)
From Coq Require Import Ascii String ZArith.
From stdpp Require Import base strings list.
From Verif Require Import GoBase Ast Content Section Html Annotate.
Local Open Scope string_scope. Local Open Scope list_scope.

(** What the texts depend on. *)
Record telling := Telling {
  t_open : string → string + string;   (* os.Open: the text of its error, or the bytes *)
  t_size : nat;                        (* the buffer of bufio.NewReader *)
  t_stat : string → string;            (* the text of os.Stat's error *)
  t_inner : errloc → string;           (* the text of a syntax error *)
  t_say : content → string;            (* fmt's %s of a content *)
  t_tmpl : string                      (* what text/template says of a failed page *)
}.

Definition lf : string := String nl "".
Definition esc : string := String "027" "".

Fixpoint srepeat (c : ascii) (n : nat) : string :=
  match n with 0 => "" | S n => String c (srepeat c n) end.

(** Go: "% 4d" of a number that is not negative: a blank and the digits, filled up to
    four with blanks. *)
Definition four (n : nat) : string :=
  let s := " " +:+ dec n in srepeat " " (4 - String.length s) +:+ s.

Section report.
  Context (T : telling).

  (** The texts of the errors: the [Error] methods of errors.go:101, 129, 169, 210,
      242, 286, and fmt.Errorf in stages/evaluate.go:197-285 and
      baselit/plugin.go:31, 264, 282, 286. *)
  Fixpoint error_text (e : error) : string :=
    match e with
    | EStat p => t_stat T p
    | EParse l => "parse error: " +:+ t_inner T l
    | EUnknownTag name _ _ => "unknown tag '" +:+ name +:+ "'"
    | EAmbiguous name _ _ => "ambiguous target for tag '" +:+ name +:+ "'"
    | EUndefined fn _ => "undefined function \" +:+ fn
    | EFailed fn e _ => "function \" +:+ fn +:+ " returned an error: " +:+ error_text e
    | ETitleTwice _ _ => "cannot set title twice"
    | EArity fn given need variadic =>
      "argument count mismatch for " +:+ fn +:+ ": given " +:+ dec given +:+
      (if variadic then ", need at least " else ", need ") +:+ dec need
    | EArgType ty => "unsupported argument type: " +:+ ty
    | ERetType pos ty =>
      match pos with
      | 0 => "unknown return type: "
      | 1 => "unknown first return type: "
      | _ => "unknown second return type: "
      end +:+ ty
    | ERetCount fn n => "expected 0-2 return values from " +:+ fn +:+ ", got " +:+ dec n
    | EUnknownPlugin name => "unknown plugin '" +:+ name +:+ "'"
    | ETableRow row => "table row is not a list: " +:+ t_say T row
    | EDefNotList item => "definition item is not a list: " +:+ t_say T item
    | EDefNotTwo item => "definition item must have two entries: " +:+ t_say T item
    | EPlugin msg => msg
    end.

  (** ** Terminal *)

  (** errors.go:326-332 [Annotate]. *)
  Definition annotate (l : errloc) (msg : string) : string :=
    if Nat.eqb (l_line (el_loc l)) 0 then el_file l +:+ ": " +:+ msg
    else el_file l +:+ ":" +:+ dec (l_line (el_loc l)) +:+ ": " +:+ msg.

  (** errors.go:336-354 [AnnotateLocation]. The only error of reading is io.EOF,
      whose text is "EOF". *)
  Definition annotate_location (l : errloc) : string :=
    if Nat.eqb (l_line (el_loc l)) 0 then ""
    else
      match t_open T (el_file l) with
      | inl err => err +:+ lf
      | inr file =>
        match line_in_question (t_size T) file (l_line (el_loc l)) with
        | None => "EOF" +:+ lf
        | Some line =>
          let prefix := four (l_line (el_loc l)) +:+ "| " in
          prefix +:+ line +:+ lf +:+
          srepeat " " (String.length prefix + l_col (el_loc l) - 1) +:+
          esc +:+ "[31m" +:+ srepeat "^" (el_len l) +:+ esc +:+ "[0m" +:+ lf
        end
      end.

  (** Go: textio.NewPrefixWriter, all writes taken together: a line is passed on with
      the prefix once it is complete; what follows the last line feed stays in the
      buffer (nothing here calls Flush). *)
  Fixpoint indented_from (prefix line s : string) : string :=
    match s with
    | "" => ""
    | String c s =>
      if Ascii.eqb c nl then prefix +:+ line +:+ lf +:+ indented_from prefix "" s
      else indented_from prefix (line +:+ String c "") s
    end.
  Definition indented (prefix s : string) : string := indented_from prefix "" s.

  (** The [PrettyPrint] methods, errors.go:107, 135, 179, 219, 257, 297. *)
  Fixpoint pretty_print (e : error) : string :=
    match e with
    | EParse l => annotate l (error_text e) +:+ lf +:+ lf +:+ annotate_location l
    | EUnknownTag name similar l =>
      annotate l (error_text e) +:+ lf +:+ lf +:+ annotate_location l +:+
      match similar with
      | [] => "I couldn't find any similar tags. :(" +:+ lf
      | _ => "These tags seem similar:" +:+ lf +:+ lf +:+
             sconcat (map (λ t, "- " +:+ t_name t +:+ lf) similar) +:+
             lf +:+ "Did you mean one of these?" +:+ lf
      end
    | EAmbiguous name defs l =>
      annotate l (error_text e) +:+ lf +:+ lf +:+ annotate_location l +:+
      "The same tag was defined in the following locations:" +:+ lf +:+ lf +:+
      sconcat (map (λ d, "- " +:+ el_file d +:+ ":" +:+ lf +:+ indented "  " (annotate_location d)) defs) +:+
      "Tags must be unique so I know where to link to!" +:+ lf
    | EUndefined _ l => annotate l (error_text e) +:+ lf +:+ lf +:+ annotate_location l
    | EFailed fn inner l =>
      annotate l ("function \" +:+ fn +:+ " returned an error") +:+ lf +:+ lf +:+ annotate_location l +:+
      (if is_pretty inner then indented "  " (pretty_print inner)
       else esc +:+ "[33m" +:+ error_text inner +:+ esc +:+ "[0m" +:+ lf)
    | ETitleTwice first l =>
      annotate l (error_text e) +:+ lf +:+ lf +:+ annotate_location l +:+
      "The section's title was first set here:" +:+ lf +:+ lf +:+ annotate_location first +:+
      "Maybe the second \title should be in a \section{...}?" +:+ lf
    | _ => ""
    end.

  (** booklitcmd/main.go:32-42, without the exit. *)
  Definition report (e : error) : string :=
    if is_pretty e then pretty_print e else error_text e +:+ lf.

  (** ** Pages *)

  (** Go: template.HTMLEscapeString; unlike [escape] it leaves plus signs alone. *)
  Fixpoint escape_string (s : string) : string :=
    match s with
    | "" => ""
    | String c s => (if Ascii.eqb c "+" then "+" else escape_char c) +:+ escape_string s
    end.

  (** errors.go:365-393 and errhtml/annotated-line.tmpl. None: an error, or a panic
      that the template turns into one. *)
  Definition annotated_html (l : errloc) : option string :=
    match annotated (t_size T) (match t_open T (el_file l) with inl _ => None | inr f => Some f end) l with
    | ANone => Some ""
    | AFail | APanic => None
    | AShow s =>
      Some ("<div class=""file-snippet"">" +:+ lf +:+
            "  <pre class=""file-path"">" +:+ escape (el_file l) +:+ ":</pre>" +:+ lf +:+ lf +:+
            "  <div class=""annotated-line"">" +:+ lf +:+
            "    <pre class=""lineno"">" +:+ escape (four (sn_line s)) +:+ "</pre>" +:+ lf +:+
            "    " +:+
            (if sn_eof s then
               lf +:+ "    <pre class=""line""><span class=""eof"">(end of file)</span></pre>" +:+ lf +:+ "    "
             else
               lf +:+ "    <pre class=""line"">" +:+ escape (sn_prefix s) +:+ "<span class=""annotated"">" +:+
               escape (sn_annotated s) +:+ "</span>" +:+ escape (sn_suffix s) +:+ "</pre>" +:+ lf +:+ "    ") +:+ lf +:+
            "  </div>" +:+ lf +:+ "</div>")
    end.

  (** The lines that all these templates have in common. *)
  Definition code_location (html : string) : string :=
    "  <div class=""code-location"">" +:+ lf +:+ "    " +:+ html +:+ lf +:+ "  </div>" +:+ lf.
  Definition error_div (message rest : string) : string :=
    "<div class=""error"">" +:+ lf +:+ "  <div class=""error-message"">" +:+ message +:+ "</div>" +:+ lf +:+ lf +:+
    rest +:+ "</div>".

  Fixpoint omap_all {A B} (f : A → option B) (l : list A) : option (list B) :=
    match l with
    | [] => Some []
    | x :: l => y ← f x; ys ← omap_all f l; Some (y :: ys)
    end.

  (** errors.go:25-41, the function "error", with the [PrettyHTML] methods
      (errors.go:115, 155, 197, 227, 274, 313) and errhtml/*.tmpl. *)
  Fixpoint error_html (e : error) : option string :=
    match e with
    | EParse l =>
      h ← annotated_html l;
      Some (error_div "parse error" ("  <p>" +:+ escape (t_inner T l) +:+ "</p>" +:+ lf +:+ lf +:+ code_location h))
    | EUnknownTag name similar l =>
      h ← annotated_html l;
      Some (error_div ("reference to unknown tag: <code>" +:+ escape name +:+ "</code>")
        (code_location h +:+ lf +:+ "  " +:+
         match similar with
         | [] => lf +:+ "  <p>I couldn't find any similar tags. :(</p>" +:+ lf +:+ "  "
         | _ => lf +:+ "  <p>These tags seem similar:</p>" +:+ lf +:+ lf +:+ "  <ul>" +:+ lf +:+ "  " +:+
                sconcat (map (λ t, lf +:+ "    <li><p><code>" +:+ escape (t_name t) +:+ "</code></p></li>" +:+ lf +:+ "  ") similar) +:+
                lf +:+ "  </ul>" +:+ lf +:+ lf +:+ "  <p>Did you mean one of these?</p>" +:+ lf +:+ "  "
         end +:+ lf))
    | EAmbiguous name defs l =>
      h ← annotated_html l;
      hs ← omap_all annotated_html defs;
      Some (error_div ("ambiguous reference tag: <code>" +:+ escape name +:+ "</code>")
        (code_location h +:+ lf +:+
         "  <p>The same tag was defined in the following locations:</p>" +:+ lf +:+ lf +:+ "  " +:+
         sconcat (map (λ h, lf +:+ code_location h +:+ "  ") hs) +:+ lf +:+ lf +:+
         "  <p>One of these tags must be changed.</p>" +:+ lf))
    | EUndefined fn l =>
      h ← annotated_html l;
      Some (error_div ("undefined function: <code>\" +:+ escape fn +:+ "</code>") (code_location h))
    | EFailed fn inner l =>
      h ← annotated_html l;
      r ← error_html inner;
      Some (error_div ("function <code>\" +:+ escape fn +:+ "</code> returned an error")
        (code_location h +:+ lf +:+ "  " +:+ r +:+ lf))
    | ETitleTwice first l =>
      h ← annotated_html l;
      h1 ← annotated_html first;
      Some (error_div "cannot set title twice"
        (code_location h +:+ lf +:+ "  <p>The section's title was first set here:</p>" +:+ lf +:+ lf +:+
         code_location h1 +:+ lf +:+
         "  <p>Maybe the second <code>\title</code> should be in a <code>\section{...}</code>?</p>" +:+ lf))
    | _ => Some ("<pre class=""raw-error"">" +:+ escape_string (error_text e) +:+ "</pre>")
    end.

  (** errors.go:74-79 [ErrorResponse] and errhtml/page.tmpl. A failure leaves what was
      written so far; [css] is errhtml/errors.css as html/template writes it. *)
  Definition error_page_before (css : string) : string :=
    "<!DOCTYPE html>" +:+ lf +:+ "<html>" +:+ lf +:+ "  <head>" +:+ lf +:+
    "    <meta http-equiv=""content-type"" content=""text/html; charset=utf-8"" />" +:+ lf +:+
    "    <meta name=""viewport"" content=""width=device-width"" />" +:+ lf +:+
    "    <title>Booklit Error</title>" +:+ lf +:+
    "    <style type=""text/css"">" +:+ css +:+ "</style>" +:+ lf +:+ "  </head>" +:+ lf +:+ "  <body>" +:+ lf +:+
    "    <div class=""error-panel"">" +:+ lf +:+
    "      <h1 class=""title-header"">your book is lit! ...on fire.</h1>" +:+ lf +:+ lf +:+ "      ".
  Definition error_page_after : string :=
    lf +:+ "    </div>" +:+ lf +:+ String "009" "</body>" +:+ lf +:+ "</html>".
  Definition error_response (css : string) (e : error) : string :=
    match error_html e with
    | Some h => error_page_before css +:+ h +:+ error_page_after
    | None => error_page_before css +:+ "failed to render error page: " +:+ t_tmpl T
    end.
End report.
