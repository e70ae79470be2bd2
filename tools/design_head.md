# Formal model of vito/booklit

Booklit turns `.lit` text into a tree of sections and renders it to HTML, text and a search index. The
model covers the parser, the evaluator with arbitrary plugins, the base plugin, collection, loading, the
section tree and its queries, content values, references, the renderers with their bundled templates, the
page writer, the server's routing, the error annotation, and the concurrent parts (parse cache, template
reloading, lazy content, slow-invocation timers).

## Trusted base

* Coq 8.16.1's kernel, including `vm_compute` (used for concrete examples and for tables such as the 256
  bytes or the grammar).
* Axioms: none. Every theorem named in MANIFEST.json prints "Closed under the global context" under
  `Print Assumptions` (each `Props_*.v` prints it below the theorem). The only axiom-like constants in the
  libraries loaded are the seven of `Coq.ssr.ssrunder.Under_rel` (standard library); no theorem uses them.
* That the model is what the Go code does. Every model definition carries a comment with the Go file and lines
  it stands for. Nothing is extracted or run against the Go program: the sandbox has no Go dependencies, so
  the correspondence was checked by reading only.
* The behaviour of Go's libraries where named below.

## How to read the development

| kind of file | contents |
|---|---|
| model files (list below) | definitions only, each with the lines it models |
| `*Spec.v` and the "Specification" part at the top of some files | vocabulary of the statements, independent of the model's helpers |
| `*Proofs.v`, `Eval*.v`, `Peg*.v` etc. | lemmas |
| `Props_*.v` | the theorems, `Print Assumptions`, and an example meeting the hypotheses |

Theorem names end in `_partial` when something of the claim is missing (the note says what) and in `_refuted`
when the claim is false of the code; those give a concrete witness.

### Model files

| file | models | 
|---|---|
| GoBase.v | outcomes of Go calls; `strings`, `path/filepath` helpers |
| Utf8.v | `utf8.DecodeRune` |
| Peg.v | ast/booklit.peg.go: grammar table as data, run-time as an interpreter, semantic actions |
| Ast.v | ast/node.go |
| Content.v | one constructor per content kind; `IsFlow`, `Append`, `StripAux` |
| Section.v | section.go, reference.go, the `String` methods |
| RefCache.v | the cached tag of a reference, as a state machine |
| Registry.v | plugin.go |
| Evaluate.v | stages/evaluate.go, load/processor.go (without the cache), baselit/plugin.go |
| Collect.v | stages/collect.go, the stages of a load |
| Cache.v | load/processor.go: the parse cache with concurrent loads |
| Render.v | render/common.go, render/writer.go, the search index |
| Html.v | render/html.go and render/html/*.tmpl with html/template's escaping |
| TextRender.v | render/text.go and render/text/*.tmpl |
| Templates.v | template loading and reloading of both engines |
| Tmpl.v, TmplEsc.v, TmplExec.v | the language of templates: text/template's lexer, parser and execution, html/template's escaping, the functions of both engines |
| TmplSrc.v | the bundled templates, as text |
| Annotate.v | errors.go: the annotated source line |
| Report.v | errors.go, errhtml/*.tmpl, booklitcmd/main.go: reports and pages of errors |
| ErrSrc.v, ErrTmpl.v | errhtml/*.tmpl as text and executing them (errors.go:21-79); the style sheet is not read |
| Book.v | (specification) books, their source and their pages, for C73 |
| BookLaid.v | (specification) books in several files, for C74 |
| BookPlain.v | (specification) books as plain text, for C83 |
| BookChoose.v | (specification) a section of a book on its own, for C84 |
| BookUnder.v | (specification) a section that is loaded below a book, for C85 |
| BookSingle.v | (specification) books on one page, for C86 |
| DocsTmpl.v | docs/html/*.tmpl: their texts, loaded over the bundled templates |
| SiteSpec.v | (specification) pages of the documentation, for C87 |
| BookText.v | (specification) the search index of a book, for C75 |
| TmplWritten.v, TmplMeaning.v | the template language of Go's documentation: how templates are written, what they mean (specification of C77) |
| HtmlRead.v | where the actions of an HTML template stand (specification of C78) |
| TmplFiles.v | which templates the files of a directory define (specification of C79) |
| Expected.v | the interpreter again, with the list of what was expected; the texts of syntax errors (C80) |
| ExpectedSpec.v | which matchers a parser of the grammar comes to (specification of C80) |
| Docs.v | docs/go/plugin.go, docs/hello/go/plugin.go, the syntax function of chroma/plugin.go |
| DocsSpec.v | what these functions give (specification of C81) |
| MembersSpec.v | what sections, contents, tags and functions tell templates (specification of C82) |
| Json.v, Command.v | encoding/json for the search index; booklitcmd/command.go: Build, for given pages |
| Program.v | booklitcmd/main.go, booklitcmd/command.go: Main, Execute, Build with templates, reexec |
| Server.v, Serve.v | booklitcmd/server.go: which section is asked for; ServeHTTP with the caches it keeps |
| Chroma.v | chroma/plugin.go |
| Lexer.v | chroma/booklit_lexer.go, run by chroma's RegexLexer |
| Lazy.v, Slow.v | lazy.go; the timers of stages/evaluate.go |

`Descent.v` is not a model: it is a recursive-descent reading of the grammar used as a stepping stone, and
`DescentProofs.v`/`DescentRules.v`/`ParserMain.v` show the interpreter of Peg.v agrees with it.

## Conventions and simplifications

Whole model

* Go strings are byte strings: Coq `string`. `int` is `nat` or `Z` without overflow.
* Sections live in a heap (`list section`, pointer = index, allocation appends). Contents are values, as they
  are never mutated by the code; a Reference's cached tag is modelled apart (RefCache.v), the rest of the model
  resolves anew each time, which C15's theorems justify for unchanged trees.
* Recursion over pointers has fuel; running out is the distinct outcome `NoFuel`, shown not to occur on
  consistent heaps, or (String, loading) shown to occur exactly when the Go code recurses for ever.
* Outcomes are `Ok | Err e | Panic | NoFuel`. Panics modelled: nil dereference, reflect's panics, index out of
  range. A panic ends the whole load (Go: the process, or the request handler).
* nil interfaces and pointers are `None` where the code can produce them.
* Maps are association lists; where iteration order matters it is an arbitrary permutation (`ord`).
* Errors are structured values; their texts are in Report.v. The texts of errors of the operating system, of syntax errors and of other
  plugins' errors are arbitrary. An error of a plugin that wraps a pretty error is not modelled.
* Logging is not modelled, except the existence of slow-invocation complaints.

Parser

* The interpreter follows the generated run-time; memoization, debug output, statistics, the 2^64 expression
  limit, `cur.state` and throw/recover are unused by this grammar and left out. Rule references are resolved
  statically. Peg.v leaves out the list of what was expected; Expected.v is the same interpreter with it.
* Fuel for the interpreter is linear in the input length and shown to suffice (C01).

Evaluation

* Plugins are arbitrary programs over the API of sections (a free monad: read and set fields of the section the
  plugin was made for, make subsections, evaluate, load files, return or fail or panic). A plugin that mutates
  other sections behind the API or keeps goroutines running is not modelled.
* `reflect`: a method is found by name and called with checked arity and argument kinds; other reflect behaviour
  is not modelled.
* The file system is one function from paths to modification time and parse result during a load; errors on opening are folded into
  the parse result.
* Slices are immutable (no aliasing by append is observable in this code).
* `PrettyError`s are kept with their locations.

* textio.NewPrefixWriter is modelled on all it is given: whole lines are passed on with the prefix.

Rendering

* Html.v and TextRender.v have the bundled templates written out as the strings they emit. C66 shows that executing the text
  of the templates in the model of the template language (Tmpl*.v) gives the same; that text was compared byte by byte
  with render/bindata.go. The model of the language covers what its headers say (no pipelines with assignment, `block`, `break`, comments in
  odd places, ...); what it does not cover is an error in it. A panic in a function called from a template
  is an error of the template, as in text/template. Partial output before an error is not
  modelled, nor the limit of 100000 nested template calls.
* text/template wraps the error of a failed reference so that errors.As finds it (Go 1.16 and later), through any
  number of nested templates; the other errors of templates are one error to the writer.
* html/template's contextual escaping is modelled for element text, text of title and textarea, names of tags, quoted
  attributes and URLs in them; templates that put data elsewhere (scripts, styles, unquoted attributes) are rejected.
* The writer's file system is a map; opening may fail for arbitrary names.
* encoding/json is modelled for what the search index needs (strings, integers, one struct, one map).

Concurrency

* Steps are atomic at the granularity of one mutex operation, one map access, one stat, one read.
* Lazy: `sync.Once` after its implementation; the function terminates and does not force the same Lazy again.
* Cache: time stamps have a granularity; C36's theorems state the assumption they need and refute the rest.

Not modelled

* reading the command line (go-flags), profiling and logging in booklitcmd; ci; the chroma
  library (but for the engine that runs chroma/booklit_lexer.go, modelled from its documentation), the documents in docs (docs/html/sidebar.tmpl, which nothing uses, is only parsed and escaped), JavaScript and styles.

## Validation

`tools/conform.py` takes the examples of /repo/tests as text, loads each in the model (`Command.choose`), writes its pages by
executing the bundled templates and those of tests/fixtures (`TmplExec.run_page`), as the tests do, and compares with
what the tests expect: pages, search indices and errors. All 62 examples agree.

## Findings

The following claims of the list are false of the code as it stands; each has a witness theorem.

| property | finding | theorem |
|---|---|---|
| C03 | text starting with a blank loses it | leading_blank_refuted |
| C04 | verbatim text cannot end in `}` | verbatim_brace_refuted |
| C05 | a block inside a block uses the outer indentation | nested_indent_refuted |
| C06 | a comment directly after an invocation is an argument; on its own line it ends the paragraph; blanks before it vanish | comment_argument_refuted, comment_line_refuted, comment_blanks_refuted |
| C09 | errors at a line feed are reported on the next line with column 0; empty documents do not parse | error_column_refuted, blank_document_refuted |
| C20 | pages with equal tags overwrite each other | pages_overwrite_each_other_refuted |
| C21 | targets in partials and styled sections have URLs without anchors | partial_fragment_refuted, styled_fragment_refuted |
| C23 | titles without ASCII letters or digits all get the empty tag | default_tag_empty_refuted |
| C24 | StripAux crashes on contents without content; Aux directly in a style is kept | strip_aux_total_refuted, strip_aux_drops_all_aux_text_refuted |
| C25 | variadic Append drops elements | append_variadic_refuted |
| C32 | `\single-page` after `\split-sections` has no effect | single_page_afterwards_refuted |
| C35 | loading some documents panics | load_no_panic_refuted |
| C35 | a plugin that sets a nil partial or returns a nil content makes loading panic | plugin_panics_refuted |
| C36 | the cache serves old content when times are equal or go back | cache_granularity_refuted, cache_backwards_refuted |
| C37 | reloading misses deletions, older files, files after a failure | templates_*_refuted |
| C38 | if the function of a Lazy panics, later Force calls return nothing | lazy_panic_refuted |
| C39 | untitled pages are not served; "/" needs a section tagged index | server_untitled_refuted, server_front_refuted |
| C40 | column 0 panics; columns count characters, bytes are cut; long lines count as several | annotated_*_refuted |
| C42 | a table of contents with an untitled section is an error in HTML | untitled_toc_refuted |
| C43 | a title is not separated from an empty body; styled pages render in HTML only | text_title_separated_refuted, text_styled_page_refuted |
| C44 | a section styled raw-html goes out unescaped | base_raw_html_refuted, base_page_style_refuted |
| C47 | "still running" can be logged after "finished" | slow_order_refuted |
| C50 | nested targets are not collected; nil partials panic | collection_of_*_refuted |
| C51 | a reference after a nested invocation records the nested location | own_location_refuted |
| C52 | text made by a transformer goes out unescaped | transform_raw_refuted |
| C55 | a file that includes itself is loaded for ever | load_ends_refuted |
| C56 | a title referring to itself makes String recurse for ever | string_ends_refuted |
| C57 | optional references without content cannot be rendered | optional_reference_refuted |
| C08 | files mixing both line endings can parse differently once converted | line_ends_mixed_refuted |
| C59 | names differing in bytes that are not UTF-8 become the same member | search_file_names_distinct_refuted |
| C60 | tags with a colon are linked to as #ZgotmplZ | colon_link_refuted |
| C60 | tags with #, ? or %41 are linked to as another file | reserved_link_refuted |
| C61 | --section-tag/--section-path with --out succeed without writing a section that is no page | build_tag_refuted, build_path_refuted |
| C61 | the search index lists pages that a partial build does not write, and can replace a page | build_part_index_refuted, build_index_replaces_refuted |
| C62 | the caret of a parse error at a line feed is one left of the next line | report_column_refuted |
| C63 | a parse error at a line feed has a broken error page | error_page_complete_refuted |
| C63 | an error in a file that became shorter has a broken error page | error_page_changed_refuted |
| C64 | a wrong number of arguments is reported without file and line | located_arity_refuted |
| C64 | in an inline section it is reported at the section | located_section_refuted |
| C64 | a broken reference is shown at an invocation in its text | located_display_refuted |
| C65 | which of two targets of the same name in two partials is in the search index depends on the order of map iteration | repro_index_refuted |
| C65 | so does the order in which an error lists definitions | repro_error_refuted |
| C69 | a plugin path with a quotation mark imports other packages | program_imports_refuted |
| C70 | the server keeps showing a file that was replaced by an older one; it ignores --text-file-extension | server_older_refuted, server_text_refuted |
| C72 | a comment after an escaped backslash is highlighted as text; two closing braces in verbatim text as an error | lexer_comment_refuted, lexer_verbatim_refuted |
| C81 | a godoc reference without a dot, a definition of what is no invocation or has verbatim arguments crash the program | docs_no_panic_refuted |
| C83 | in text output the text of a section follows its title without anything between (section.tmpl trims the empty line) | titles_apart_refuted |
| C84 | --section-tag with --out for a section that is not a page of its own writes nothing and reports success; and --save-search-index then lists pages that are not written | section_written_refuted, index_written_refuted |
| C85 | --section-path for a file that the book already includes fails with an ambiguous reference when it refers to itself; writes nothing, successfully, when the book is not split; is left out of the search index | path_twice_refuted, path_written_refuted, path_index_refuted |
| C86 | An additional single-page version of chapters inside the book makes references to them ambiguous: the build fails | single_page_additional_refuted |
| C87 | The URL of an output frame is escaped twice, so one with an ampersand is not the frame's | site_frames_refuted |
