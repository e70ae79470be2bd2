(** The bundled templates, render/html/*.tmpl and render/text/*.tmpl, without the
    line feeds at the end (render/html.go:70, render/text.go:51). Their bytes were
    compared with those compiled into bindata.go; reference.tmpl differs. *)
From Coq Require Import Ascii String.
From stdpp Require Import base strings list.
From Verif Require Import GoBase.
Local Open Scope string_scope. Local Open Scope list_scope.

Definition lines (l : list string) : string := sjoin nls l.

(** render/html/aside.tmpl *)
Definition src_html_aside : string := "<blockquote class=""aside"">{{.Content | render}}</blockquote>".
(** render/html/bold.tmpl *)
Definition src_html_bold : string := "<strong>{{.Content | render}}</strong>".
(** render/html/definitions.tmpl *)
Definition src_html_definitions : string := lines [
  "<dl>";
  "  {{range .}}";
  "  <dt>{{.Subject | render}}</dt>";
  "    <dd>{{.Definition | render}}</dd>";
  "  {{end}}";
  "</dl>"].
(** render/html/image.tmpl *)
Definition src_html_image : string := "<img src=""{{.Path}}"" alt=""{{.Description}}"" />".
(** render/html/inset.tmpl *)
Definition src_html_inset : string := "<div style=""margin: 0 2em 1em"" class=""inset"">{{.Content | render}}</div>".
(** render/html/italic.tmpl *)
Definition src_html_italic : string := "<em>{{.Content | render}}</em>".
(** render/html/larger.tmpl *)
Definition src_html_larger : string := "<span style=""font-size: 120%"">{{.Content | render}}</span>".
(** render/html/link.tmpl *)
Definition src_html_link : string := "<a href=""{{.Target}}"">{{.Content | render}}</a>".
(** render/html/list.tmpl *)
Definition src_html_list : string := lines [
  "{{if .Ordered}}<ol>{{else}}<ul>{{end}}";
  "{{range .Items}}";
  "  <li>{{. | render}}</li>";
  "{{end}}";
  "{{if .Ordered}}</ol>{{else}}</ul>{{end}}"].
(** render/html/page.tmpl *)
Definition src_html_page : string := lines [
  "<!DOCTYPE html>";
  "<html>";
  "  <head>";
  "    <meta http-equiv=""content-type"" content=""text/html; charset=utf-8"" />";
  "    <title>{{.Title.String}}</title>";
  "  </head>";
  "  <body>";
  "    {{. | render}}";
  "  </body>";
  "</html>"].
(** render/html/paragraph.tmpl *)
Definition src_html_paragraph : string := "<p>{{range $index, $line := .}}{{if $index}} {{end}}{{$line | render}}{{end}}</p>".
(** render/html/preformatted.tmpl *)
Definition src_html_preformatted : string := lines [
  "{{range $index, $line := .}}{{if $index}}";
  "{{end}}{{$line | render}}{{end}}"].
(** render/html/raw-html.tmpl *)
Definition src_html_raw_html : string := "{{. | rawHTML}}".
(** render/html/reference.tmpl *)
Definition src_html_reference_file : string := lines [
  "{{- if .Tag -}}";
  "<a href=""{{.Tag | url}}"">";
  "  {{- .Display | stripAux | render -}}";
  "</a>";
  "{{- else -}}";
  "  {{- .Content | stripAux | render -}}";
  "{{- end -}}"].
(** render/html/bindata.go, which was not made anew since the last change of
    reference.tmpl. *)
Definition src_html_reference : string :=
  "{{if .Tag}}<a href=""{{.Tag | url}}"">{{.Display | stripAux | render}}</a>{{else}}{{.Content | stripAux | render}}{{end}}".
(** render/html/section.tmpl *)
Definition src_html_section : string := lines [
  "<h{{headerDepth .}} class=""section-header""><a id=""{{.PrimaryTag.Name}}""></a>";
  "  {{- if .Parent -}}";
  "    <span class=""section-number"">{{.Number}} </span>";
  "  {{- end -}}";
  "  {{.Title | render -}}";
  "</h{{headerDepth .}}>";
  "";
  "{{.Body | render}}";
  "";
  "{{if not .SplitSections}}";
  "  {{range .Children}}";
  "    {{. | render}}";
  "  {{end}}";
  "{{end}}"].
(** render/html/sequence.tmpl *)
Definition src_html_sequence : string := "{{range .Contents}}{{. | render}}{{end}}".
(** render/html/smaller.tmpl *)
Definition src_html_smaller : string := "<span style=""font-size: 80%"">{{.Content | render}}</span>".
(** render/html/strike.tmpl *)
Definition src_html_strike : string := "<span style=""text-decoration: line-through"">{{.Content | render}}</span>".
(** render/html/string.tmpl *)
Definition src_html_string : string := "{{.String}}".
(** render/html/subscript.tmpl *)
Definition src_html_subscript : string := "<sub>{{.Content | render}}</sub>".
(** render/html/superscript.tmpl *)
Definition src_html_superscript : string := "<sup>{{.Content | render}}</sup>".
(** render/html/table.tmpl *)
Definition src_html_table : string := lines [
  "<table>";
  "  {{range .Rows}}";
  "  <tr>";
  "    {{range .}}";
  "    <td>{{. | render}}</td>";
  "    {{end}}";
  "  </tr>";
  "  {{end}}";
  "</table>"].
(** render/html/target.tmpl *)
Definition src_html_target : string := "<a id=""{{.TagName}}""></a>".
(** render/html/toc.tmpl *)
Definition src_html_toc : string := lines [
  "{{if and .Children (not .OmitChildrenFromTableOfContents)}}";
  "<nav>";
  "  <ul>";
  "  {{range .Children}}";
  "    <li>";
  "      <a href=""{{.PrimaryTag | url}}"">{{.Number}} {{.Title | stripAux | render}}</a>";
  "";
  "      {{template ""toc.tmpl"" .}}";
  "    </li>";
  "  {{end}}";
  "  </ul>";
  "</nav>";
  "{{end}}"].
(** render/html/verbatim.tmpl *)
Definition src_html_verbatim : string := "{{if .IsFlow}}<code>{{.Content | render}}</code>{{else}}<pre>{{.Content | render}}</pre>{{end}}".

Definition html_sources : list (string * string) :=
  [("aside.tmpl", src_html_aside);
   ("bold.tmpl", src_html_bold);
   ("definitions.tmpl", src_html_definitions);
   ("image.tmpl", src_html_image);
   ("inset.tmpl", src_html_inset);
   ("italic.tmpl", src_html_italic);
   ("larger.tmpl", src_html_larger);
   ("link.tmpl", src_html_link);
   ("list.tmpl", src_html_list);
   ("page.tmpl", src_html_page);
   ("paragraph.tmpl", src_html_paragraph);
   ("preformatted.tmpl", src_html_preformatted);
   ("raw-html.tmpl", src_html_raw_html);
   ("reference.tmpl", src_html_reference);
   ("section.tmpl", src_html_section);
   ("sequence.tmpl", src_html_sequence);
   ("smaller.tmpl", src_html_smaller);
   ("strike.tmpl", src_html_strike);
   ("string.tmpl", src_html_string);
   ("subscript.tmpl", src_html_subscript);
   ("superscript.tmpl", src_html_superscript);
   ("table.tmpl", src_html_table);
   ("target.tmpl", src_html_target);
   ("toc.tmpl", src_html_toc);
   ("verbatim.tmpl", src_html_verbatim)].

(** render/text/inset.tmpl *)
Definition src_text_inset : string := "    {{.Content | render | joinLines ""    ""}}".
(** render/text/page.tmpl *)
Definition src_text_page : string := lines [
  "{{.Title.String}}";
  "";
  "{{. | render}}"].
(** render/text/paragraph.tmpl *)
Definition src_text_paragraph : string := lines [
  "{{range $index, $line := .}}{{if $index}} {{end}}{{$line | render}}{{end}}";
  "";
  "{{""""}}"].
(** render/text/preformatted.tmpl *)
Definition src_text_preformatted : string := lines [
  "{{range $index, $line := .}}{{if $index}}";
  "{{end}}{{$line | render}}{{end}}"].
(** render/text/section.tmpl *)
Definition src_text_section : string := lines [
  "{{if .Parent}}{{.Number}} {{end}}{{.Title | render -}}";
  "";
  "{{.Body | render}}";
  "";
  "{{if not .SplitSections}}";
  "{{range .Children}}";
  "{{. | render}}";
  "{{end}}";
  "{{end}}"].
(** render/text/sequence.tmpl *)
Definition src_text_sequence : string := "{{range .Contents}}{{. | render}}{{end}}".
(** render/text/string.tmpl *)
Definition src_text_string : string := "{{.String}}".
(** render/text/toc.tmpl *)
Definition src_text_toc : string := lines [
  "{{if and .Children (not .OmitChildrenFromTableOfContents)}}";
  "{{range .Children}}";
  "{{.Number}} {{.Title | stripAux | render}}";
  "";
  "{{template ""toc.tmpl"" .}}";
  "{{end}}";
  "{{end}}"].

Definition text_sources : list (string * string) :=
  [("inset.tmpl", src_text_inset);
   ("page.tmpl", src_text_page);
   ("paragraph.tmpl", src_text_paragraph);
   ("preformatted.tmpl", src_text_preformatted);
   ("section.tmpl", src_text_section);
   ("sequence.tmpl", src_text_sequence);
   ("string.tmpl", src_text_string);
   ("toc.tmpl", src_text_toc)].
