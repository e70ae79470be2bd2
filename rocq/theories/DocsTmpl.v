(** The templates of the documentation, docs/html/*.tmpl, without the line feeds at
    the end (render/html.go:144), on top of the bundled ones. *)
From Coq Require Import Ascii String.
From stdpp Require Import base functions strings list.
From Verif Require Import GoBase Ast Content Section Render Html TextRender Templates Tmpl TmplSrc TmplEsc TmplExec.
Local Open Scope string_scope. Local Open Scope list_scope.

(** docs/html/big-code.tmpl *)
Definition src_docs_big_code : string := "<code class=""big"">{{.Content | render}}</code>".
(** docs/html/code-block.tmpl *)
Definition src_docs_code_block : string := "<div class=""highlight"">{{.Content | render}}</div>".
(** docs/html/code-flow.tmpl *)
Definition src_docs_code_flow : string := "<code class=""highlight"">{{.Content | render}}</code>".
(** docs/html/column-header.tmpl *)
Definition src_docs_column_header : string := "<div class=""column-header"">{{.Content | render}}</div>".
(** docs/html/columns.tmpl *)
Definition src_docs_columns : string := lines [
  "<div class=""columns"">";
  "  <div class=""column title"">{{.Content | render}}</div>";
  "  {{range .Partial ""Columns""}}";
  "  <div class=""column"">{{. | render}}</div>";
  "  {{end}}";
  "</div>"].
(** docs/html/definition.tmpl *)
Definition src_docs_definition : string := lines [
  "<div class=""definition"">";
  "  <pre class=""definition-thumb"">{{.Partial ""Thumb"" | render}}</pre>";
  "";
  "  <div class=""definition-content"">";
  "    {{.Content | render}}";
  "  </div>";
  "</div>"].
(** docs/html/lit-block.tmpl *)
Definition src_docs_lit_block : string := "<div class=""lit-syntax"">{{.Content | render}}</div>".
(** docs/html/lit-flow.tmpl *)
Definition src_docs_lit_flow : string := "<code class=""highlight"">{{.Content | render}}</code>".
(** docs/html/output-frame.tmpl *)
Definition src_docs_output_frame : string := "<iframe class=""output-frame"" scrolling=""no"" src=""{{.Partial ""URL"" | render}}""></iframe>".
(** docs/html/page.tmpl *)
Definition src_docs_page : string := lines [
  "<!DOCTYPE html>";
  "<html>";
  "  <head>";
  "    <meta http-equiv=""content-type"" content=""text/html; charset=utf-8"" />";
  "    <meta name=""viewport"" content=""width=device-width"" />";
  "    <title>{{.Title.String}}</title>";
  "    <link rel=""stylesheet"" type=""text/css"" href=""css/iosevka.css"" />";
  "    <link rel=""stylesheet"" type=""text/css"" href=""css/booklit.css"" />";
  "    <link rel=""shortcut icon"" type=""image/x-icon"" href=""favicon.ico"" />";
  "  </head>";
  "  <body>";
  "    <div class=""page{{if not .Parent}} top{{end}}"">";
  "      <div class=""page-header"">";
  "        <a href=""{{.Top.PrimaryTag | url}}"">Booklit</a>";
  "        <p class=""tagline"">the little static site engine that could</p>";
  "      </div>";
  "";
  "      <nav class=""top-nav"">";
  "        <ul>";
  "        {{range .Top.Children}}";
  "          <li{{if .Contains $}} class=""current""{{end}}><a href=""{{.PrimaryTag | url}}"">{{.Title | stripAux | render}}</a></li>";
  "        {{end}}";
  "        </ul>";
  "      </nav>";
  "";
  "      {{. | render}}";
  "    </div>";
  "    <script data-goatcounter=""https://booklit.goatcounter.com/count"" async src=""//gc.zgo.at/count.js""></script>";
  "  </body>";
  "</html>"].
(** docs/html/section.tmpl *)
Definition src_docs_section : string := lines [
  "<h{{headerDepth .}} class=""section-header""><a id=""{{.PrimaryTag.Name}}""></a>";
  "  {{- if .Parent -}}";
  "    <span class=""section-number""><a href=""{{.PrimaryTag | url}}"">{{.Number}}</a> </span>";
  "  {{- end -}}";
  "  {{.Title | render -}}";
  "</h{{headerDepth .}}>";
  "";
  "{{.Body | render}}";
  "";
  "{{if not .SplitSections}}";
  "  {{range .Children}}";
  "    {{. | render}}";
  "  {{end}}";
  "{{end}}"].
(** docs/html/sidebar.tmpl *)
Definition src_docs_sidebar : string := lines [
  "{{define ""section-link""}}";
  "<a href=""{{.Section.PrimaryTag | url}}"" {{if eq .Section.PrimaryTag.Name .Current.PrimaryTag.Name}} class=""self""{{end}}>";
  "  {{- .Section.Title | stripAux | render -}}";
  "</a>";
  "{{end}}";
  "";
  "<div class=""context"">";
  "  <nav>";
  "    <div class=""top"">";
  "      {{template ""section-link"" walkContext $ .Top}}";
  "    </div>";
  "";
  "    {{if .Top.Children}}";
  "    <input type=""checkbox"" class=""toggle"" {{if .Top.Contains .}}checked{{end}} />";
  "    <span class=""arrow""></span>";
  "    <div class=""children"">";
  "      <table>";
  "      {{range .Top.Children}}";
  "        <tr>";
  "          <td class=""number-cell"" align=""right"">{{.Number}}&nbsp;</td>";
  "          <td class=""title-cell"">{{template ""section-link"" walkContext $ .}}</td>";
  "        </tr>";
  "      {{end}}";
  "      </table>";
  "    </div>";
  "    {{end}}";
  "  </nav>";
  "</div>";
  "";
  "{{if and .Parent .Children}}";
  "<div class=""context"">";
  "  <nav>";
  "    <div class=""top"">";
  "      {{.Number}}&nbsp;{{template ""section-link"" walkContext $ .}}";
  "    </div>";
  "";
  "    <input type=""checkbox"" class=""toggle"" {{if .Top.Contains .}}checked{{end}} />";
  "    <span class=""arrow""></span>";
  "    <div class=""children"">";
  "      <table>";
  "      {{range .Children}}";
  "        <tr>";
  "          <td class=""number-cell"" align=""right"">{{.Number}}&nbsp;</td>";
  "          <td class=""title-cell"">{{template ""section-link"" walkContext $ .}}</td>";
  "        </tr>";
  "      {{end}}";
  "      </table>";
  "    </div>";
  "  </nav>";
  "</div>";
  "{{end}}";
  "";
  "{{if .HasAnchors}}";
  "<div class=""context"">";
  "  <div class=""top"">";
  "    On this page:";
  "  </div>";
  "";
  "  <nav>";
  "    <div class=""children"">";
  "      <table>";
  "        {{range .AnchorTags}}";
  "        <tr>";
  "          <td colspan=""2"" class=""title-cell""><a href=""{{. | url}}"">{{.Title | render}}</a></td>";
  "        </tr>";
  "        {{end}}";
  "        {{range .Children}}";
  "        <tr>";
  "          <td class=""number-cell"" align=""right"">{{.Number}}&nbsp;</td>";
  "          <td class=""title-cell"">{{template ""section-link"" walkContext $ .}}</td>";
  "        </tr>";
  "          {{range .AnchorTags}}";
  "          <tr>";
  "            <td class=""number-cell"" align=""right""></td>";
  "            <td class=""title-cell""><a href=""{{. | url}}"">{{.Title | render}}</a></td>";
  "          </tr>";
  "          {{end}}";
  "        {{end}}";
  "      </table>";
  "    </div>";
  "  </nav>";
  "</div>";
  "{{end}}"].
(** docs/html/splash.tmpl *)
Definition src_docs_splash : string := "{{.Body | render}}".
(** docs/html/syntax-hl.tmpl *)
Definition src_docs_syntax_hl : string := "<span class=""syntax-hl"">{{.Content | render}}</span>".
(** docs/html/tagline.tmpl *)
Definition src_docs_tagline : string := "<blockquote class=""tagline"">{{.Content | render}}</blockquote>".

Definition docs_sources : list (string * string) :=
  [("big-code.tmpl", src_docs_big_code);
   ("code-block.tmpl", src_docs_code_block);
   ("code-flow.tmpl", src_docs_code_flow);
   ("column-header.tmpl", src_docs_column_header);
   ("columns.tmpl", src_docs_columns);
   ("definition.tmpl", src_docs_definition);
   ("lit-block.tmpl", src_docs_lit_block);
   ("lit-flow.tmpl", src_docs_lit_flow);
   ("output-frame.tmpl", src_docs_output_frame);
   ("page.tmpl", src_docs_page);
   ("section.tmpl", src_docs_section);
   ("sidebar.tmpl", src_docs_sidebar);
   ("splash.tmpl", src_docs_splash);
   ("syntax-hl.tmpl", src_docs_syntax_hl);
   ("tagline.tmpl", src_docs_tagline)].

(** render/html.go:79-101,115-148: the engine of [booklit --html-templates docs/html]. *)
Definition docs_set : tset (list node) := default no_templates (templates bundled_html docs_sources).
