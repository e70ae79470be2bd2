(** The templates of error pages, errhtml/*.tmpl, without the line feeds at the end
    (errors.go:60). Their bytes were compared with those compiled into
    errhtml/bindata.go. *)
From Coq Require Import Ascii String.
From stdpp Require Import base strings list.
From Verif Require Import GoBase TmplSrc.
Local Open Scope string_scope. Local Open Scope list_scope.

(** errhtml/ambiguous-reference.tmpl *)
Definition err_ambiguous_reference : string := lines [
  "<div class=""error"">";
  "  <div class=""error-message"">ambiguous reference tag: <code>{{.TagName}}</code></div>";
  "";
  "  <div class=""code-location"">";
  "    {{.ErrorLocation | annotate}}";
  "  </div>";
  "";
  "  <p>The same tag was defined in the following locations:</p>";
  "";
  "  {{range .DefinedLocations}}";
  "  <div class=""code-location"">";
  "    {{. | annotate}}";
  "  </div>";
  "  {{end}}";
  "";
  "  <p>One of these tags must be changed.</p>";
  "</div>"].
(** errhtml/annotated-line.tmpl *)
Definition err_annotated_line : string := lines [
  "<div class=""file-snippet"">";
  "  <pre class=""file-path"">{{.FilePath}}:</pre>";
  "";
  "  <div class=""annotated-line"">";
  "    <pre class=""lineno"">{{.Lineno}}</pre>";
  "    {{if .EOF}}";
  "    <pre class=""line""><span class=""eof"">(end of file)</span></pre>";
  "    {{else}}";
  "    <pre class=""line"">{{.Prefix}}<span class=""annotated"">{{.Annotated}}</span>{{.Suffix}}</pre>";
  "    {{end}}";
  "  </div>";
  "</div>"].
(** errhtml/function-error.tmpl *)
Definition err_function_error : string := lines [
  "<div class=""error"">";
  "  <div class=""error-message"">function <code>\{{.Function}}</code> returned an error</div>";
  "";
  "  <div class=""code-location"">";
  "    {{.ErrorLocation | annotate}}";
  "  </div>";
  "";
  "  {{.Err | error}}";
  "</div>"].
(** errhtml/page.tmpl *)
Definition err_page : string := lines [
  "<!DOCTYPE html>";
  "<html>";
  "  <head>";
  "    <meta http-equiv=""content-type"" content=""text/html; charset=utf-8"" />";
  "    <meta name=""viewport"" content=""width=device-width"" />";
  "    <title>Booklit Error</title>";
  "    <style type=""text/css"">{{template ""errors.css""}}</style>";
  "  </head>";
  "  <body>";
  "    <div class=""error-panel"">";
  "      <h1 class=""title-header"">your book is lit! ...on fire.</h1>";
  "";
  "      {{. | error}}";
  "    </div>";
  String "009" "</body>";
  "</html>"].
(** errhtml/parse-error.tmpl *)
Definition err_parse_error : string := lines [
  "<div class=""error"">";
  "  <div class=""error-message"">parse error</div>";
  "";
  "  <p>{{.Err}}</p>";
  "";
  "  <div class=""code-location"">";
  "    {{.ErrorLocation | annotate}}";
  "  </div>";
  "</div>"].
(** errhtml/title-twice-error.tmpl *)
Definition err_title_twice_error : string := lines [
  "<div class=""error"">";
  "  <div class=""error-message"">cannot set title twice</div>";
  "";
  "  <div class=""code-location"">";
  "    {{.ErrorLocation | annotate}}";
  "  </div>";
  "";
  "  <p>The section's title was first set here:</p>";
  "";
  "  <div class=""code-location"">";
  "    {{.TitleLocation | annotate}}";
  "  </div>";
  "";
  "  <p>Maybe the second <code>\title</code> should be in a <code>\section{...}</code>?</p>";
  "</div>"].
(** errhtml/undefined-function.tmpl *)
Definition err_undefined_function : string := lines [
  "<div class=""error"">";
  "  <div class=""error-message"">undefined function: <code>\{{.Function}}</code></div>";
  "";
  "  <div class=""code-location"">";
  "    {{.ErrorLocation | annotate}}";
  "  </div>";
  "</div>"].
(** errhtml/unknown-tag.tmpl *)
Definition err_unknown_tag : string := lines [
  "<div class=""error"">";
  "  <div class=""error-message"">reference to unknown tag: <code>{{.TagName}}</code></div>";
  "";
  "  <div class=""code-location"">";
  "    {{.ErrorLocation | annotate}}";
  "  </div>";
  "";
  "  {{if .SimilarTags}}";
  "  <p>These tags seem similar:</p>";
  "";
  "  <ul>";
  "  {{range .SimilarTags}}";
  "    <li><p><code>{{.Name}}</code></p></li>";
  "  {{end}}";
  "  </ul>";
  "";
  "  <p>Did you mean one of these?</p>";
  "  {{else}}";
  "  <p>I couldn't find any similar tags. :(</p>";
  "  {{end}}";
  "</div>"].

Definition err_sources : list (string * string) := [
  ("ambiguous-reference.tmpl", err_ambiguous_reference);
  ("annotated-line.tmpl", err_annotated_line);
  ("function-error.tmpl", err_function_error);
  ("page.tmpl", err_page);
  ("parse-error.tmpl", err_parse_error);
  ("title-twice-error.tmpl", err_title_twice_error);
  ("undefined-function.tmpl", err_undefined_function);
  ("unknown-tag.tmpl", err_unknown_tag)].
