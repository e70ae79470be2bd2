# Formal model of vito/booklit

Booklit turns `.lit` text into a tree of sections and renders it to HTML, text and a search index. The
model covers the parser, the evaluator with arbitrary plugins, the base plugin, collection, loading, the
section tree and its queries, content values, references, the renderers with their bundled templates, the
page writer, the server's routing, the error annotation, and the concurrent parts (parse cache, template
reloading, lazy content, slow-invocation timers).

## Trusted base

* Coq 8.16.1's kernel, including `vm_compute` (used for concrete examples and for tables such as the 256
  bytes or the grammar).
* Axioms: none. Every theorem named in MANIFEST.json prints "Closed under the global context" under
  `Print Assumptions` (each `Props_*.v` prints it below the theorem). The only axiom-like constants in the
  libraries loaded are the seven of `Coq.ssr.ssrunder.Under_rel` (standard library); no theorem uses them.
* That the model is what the Go code does. Every model definition carries a comment with the Go file and lines
  it stands for. Nothing is extracted or run against the Go program: the sandbox has no Go dependencies, so
  the correspondence was checked by reading only.
* The behaviour of Go's libraries where named below.

## How to read the development

| kind of file | contents |
|---|---|
| model files (list below) | definitions only, each with the lines it models |
| `*Spec.v` and the "Specification" part at the top of some files | vocabulary of the statements, independent of the model's helpers |
| `*Proofs.v`, `Eval*.v`, `Peg*.v` etc. | lemmas |
| `Props_*.v` | the theorems, `Print Assumptions`, and an example meeting the hypotheses |

Theorem names end in `_partial` when something of the claim is missing (the note says what) and in `_refuted`
when the claim is false of the code; those give a concrete witness.

### Model files

| file | models | 
|---|---|
| GoBase.v | outcomes of Go calls; `strings`, `path/filepath` helpers |
| Utf8.v | `utf8.DecodeRune` |
| Peg.v | ast/booklit.peg.go: grammar table as data, run-time as an interpreter, semantic actions |
| Ast.v | ast/node.go |
| Content.v | one constructor per content kind; `IsFlow`, `Append`, `StripAux` |
| Section.v | section.go, reference.go, the `String` methods |
| RefCache.v | the cached tag of a reference, as a state machine |
| Registry.v | plugin.go |
| Evaluate.v | stages/evaluate.go, load/processor.go (without the cache), baselit/plugin.go |
| Collect.v | stages/collect.go, the stages of a load |
| Cache.v | load/processor.go: the parse cache with concurrent loads |
| Render.v | render/common.go, render/writer.go, the search index |
| Html.v | render/html.go and render/html/*.tmpl with html/template's escaping |
| TextRender.v | render/text.go and render/text/*.tmpl |
| Templates.v | template loading and reloading of both engines |
| Tmpl.v, TmplEsc.v, TmplExec.v | the language of templates: text/template's lexer, parser and execution, html/template's escaping, the functions of both engines |
| TmplSrc.v | the bundled templates, as text |
| Annotate.v | errors.go: the annotated source line |
| Report.v | errors.go, errhtml/*.tmpl, booklitcmd/main.go: reports and pages of errors |
| ErrSrc.v, ErrTmpl.v | errhtml/*.tmpl as text and executing them (errors.go:21-79); the style sheet is not read |
| Book.v | (specification) books, their source and their pages, for C73 |
| BookLaid.v | (specification) books in several files, for C74 |
| BookPlain.v | (specification) books as plain text, for C83 |
| BookChoose.v | (specification) a section of a book on its own, for C84 |
| BookUnder.v | (specification) a section that is loaded below a book, for C85 |
| BookSingle.v | (specification) books on one page, for C86 |
| DocsTmpl.v | docs/html/*.tmpl: their texts, loaded over the bundled templates |
| SiteSpec.v | (specification) pages of the documentation, for C87 |
| BookText.v | (specification) the search index of a book, for C75 |
| TmplWritten.v, TmplMeaning.v | the template language of Go's documentation: how templates are written, what they mean (specification of C77) |
| HtmlRead.v | where the actions of an HTML template stand (specification of C78) |
| TmplFiles.v | which templates the files of a directory define (specification of C79) |
| Expected.v | the interpreter again, with the list of what was expected; the texts of syntax errors (C80) |
| ExpectedSpec.v | which matchers a parser of the grammar comes to (specification of C80) |
| Docs.v | docs/go/plugin.go, docs/hello/go/plugin.go, the syntax function of chroma/plugin.go |
| DocsSpec.v | what these functions give (specification of C81) |
| MembersSpec.v | what sections, contents, tags and functions tell templates (specification of C82) |
| Json.v, Command.v | encoding/json for the search index; booklitcmd/command.go: Build, for given pages |
| Program.v | booklitcmd/main.go, booklitcmd/command.go: Main, Execute, Build with templates, reexec |
| Server.v, Serve.v | booklitcmd/server.go: which section is asked for; ServeHTTP with the caches it keeps |
| Chroma.v | chroma/plugin.go |
| Lexer.v | chroma/booklit_lexer.go, run by chroma's RegexLexer |
| Lazy.v, Slow.v | lazy.go; the timers of stages/evaluate.go |

`Descent.v` is not a model: it is a recursive-descent reading of the grammar used as a stepping stone, and
`DescentProofs.v`/`DescentRules.v`/`ParserMain.v` show the interpreter of Peg.v agrees with it.

## Conventions and simplifications

Whole model

* Go strings are byte strings: Coq `string`. `int` is `nat` or `Z` without overflow.
* Sections live in a heap (`list section`, pointer = index, allocation appends). Contents are values, as they
  are never mutated by the code; a Reference's cached tag is modelled apart (RefCache.v), the rest of the model
  resolves anew each time, which C15's theorems justify for unchanged trees.
* Recursion over pointers has fuel; running out is the distinct outcome `NoFuel`, shown not to occur on
  consistent heaps, or (String, loading) shown to occur exactly when the Go code recurses for ever.
* Outcomes are `Ok | Err e | Panic | NoFuel`. Panics modelled: nil dereference, reflect's panics, index out of
  range. A panic ends the whole load (Go: the process, or the request handler).
* nil interfaces and pointers are `None` where the code can produce them.
* Maps are association lists; where iteration order matters it is an arbitrary permutation (`ord`).
* Errors are structured values; their texts are in Report.v. The texts of errors of the operating system, of syntax errors and of other
  plugins' errors are arbitrary. An error of a plugin that wraps a pretty error is not modelled.
* Logging is not modelled, except the existence of slow-invocation complaints.

Parser

* The interpreter follows the generated run-time; memoization, debug output, statistics, the 2^64 expression
  limit, `cur.state` and throw/recover are unused by this grammar and left out. Rule references are resolved
  statically. Peg.v leaves out the list of what was expected; Expected.v is the same interpreter with it.
* Fuel for the interpreter is linear in the input length and shown to suffice (C01).

Evaluation

* Plugins are arbitrary programs over the API of sections (a free monad: read and set fields of the section the
  plugin was made for, make subsections, evaluate, load files, return or fail or panic). A plugin that mutates
  other sections behind the API or keeps goroutines running is not modelled.
* `reflect`: a method is found by name and called with checked arity and argument kinds; other reflect behaviour
  is not modelled.
* The file system is one function from paths to modification time and parse result during a load; errors on opening are folded into
  the parse result.
* Slices are immutable (no aliasing by append is observable in this code).
* `PrettyError`s are kept with their locations.

* textio.NewPrefixWriter is modelled on all it is given: whole lines are passed on with the prefix.

Rendering

* Html.v and TextRender.v have the bundled templates written out as the strings they emit. C66 shows that executing the text
  of the templates in the model of the template language (Tmpl*.v) gives the same; that text was compared byte by byte
  with render/bindata.go. The model of the language covers what its headers say (no pipelines with assignment, `block`, `break`, comments in
  odd places, ...); what it does not cover is an error in it. A panic in a function called from a template
  is an error of the template, as in text/template. Partial output before an error is not
  modelled, nor the limit of 100000 nested template calls.
* text/template wraps the error of a failed reference so that errors.As finds it (Go 1.16 and later), through any
  number of nested templates; the other errors of templates are one error to the writer.
* html/template's contextual escaping is modelled for element text, text of title and textarea, names of tags, quoted
  attributes and URLs in them; templates that put data elsewhere (scripts, styles, unquoted attributes) are rejected.
* The writer's file system is a map; opening may fail for arbitrary names.
* encoding/json is modelled for what the search index needs (strings, integers, one struct, one map).

Concurrency

* Steps are atomic at the granularity of one mutex operation, one map access, one stat, one read.
* Lazy: `sync.Once` after its implementation; the function terminates and does not force the same Lazy again.
* Cache: time stamps have a granularity; C36's theorems state the assumption they need and refute the rest.

Not modelled

* reading the command line (go-flags), profiling and logging in booklitcmd; ci; the chroma
  library (but for the engine that runs chroma/booklit_lexer.go, modelled from its documentation), the documents in docs (docs/html/sidebar.tmpl, which nothing uses, is only parsed and escaped), JavaScript and styles.

## Validation

`tools/conform.py` takes the examples of /repo/tests as text, loads each in the model (`Command.choose`), writes its pages by
executing the bundled templates and those of tests/fixtures (`TmplExec.run_page`), as the tests do, and compares with
what the tests expect: pages, search indices and errors. All 62 examples agree.

## Findings

The following claims of the list are false of the code as it stands; each has a witness theorem.

| property | finding | theorem |
|---|---|---|
| C03 | text starting with a blank loses it | leading_blank_refuted |
| C04 | verbatim text cannot end in `}` | verbatim_brace_refuted |
| C05 | a block inside a block uses the outer indentation | nested_indent_refuted |
| C06 | a comment directly after an invocation is an argument; on its own line it ends the paragraph; blanks before it vanish | comment_argument_refuted, comment_line_refuted, comment_blanks_refuted |
| C09 | errors at a line feed are reported on the next line with column 0; empty documents do not parse | error_column_refuted, blank_document_refuted |
| C20 | pages with equal tags overwrite each other | pages_overwrite_each_other_refuted |
| C21 | targets in partials and styled sections have URLs without anchors | partial_fragment_refuted, styled_fragment_refuted |
| C23 | titles without ASCII letters or digits all get the empty tag | default_tag_empty_refuted |
| C24 | StripAux crashes on contents without content; Aux directly in a style is kept | strip_aux_total_refuted, strip_aux_drops_all_aux_text_refuted |
| C25 | variadic Append drops elements | append_variadic_refuted |
| C32 | `\single-page` after `\split-sections` has no effect | single_page_afterwards_refuted |
| C35 | loading some documents panics | load_no_panic_refuted |
| C35 | a plugin that sets a nil partial or returns a nil content makes loading panic | plugin_panics_refuted |
| C36 | the cache serves old content when times are equal or go back | cache_granularity_refuted, cache_backwards_refuted |
| C37 | reloading misses deletions, older files, files after a failure | templates_*_refuted |
| C38 | if the function of a Lazy panics, later Force calls return nothing | lazy_panic_refuted |
| C39 | untitled pages are not served; "/" needs a section tagged index | server_untitled_refuted, server_front_refuted |
| C40 | column 0 panics; columns count characters, bytes are cut; long lines count as several | annotated_*_refuted |
| C42 | a table of contents with an untitled section is an error in HTML | untitled_toc_refuted |
| C43 | a title is not separated from an empty body; styled pages render in HTML only | text_title_separated_refuted, text_styled_page_refuted |
| C44 | a section styled raw-html goes out unescaped | base_raw_html_refuted, base_page_style_refuted |
| C47 | "still running" can be logged after "finished" | slow_order_refuted |
| C50 | nested targets are not collected; nil partials panic | collection_of_*_refuted |
| C51 | a reference after a nested invocation records the nested location | own_location_refuted |
| C52 | text made by a transformer goes out unescaped | transform_raw_refuted |
| C55 | a file that includes itself is loaded for ever | load_ends_refuted |
| C56 | a title referring to itself makes String recurse for ever | string_ends_refuted |
| C57 | optional references without content cannot be rendered | optional_reference_refuted |
| C08 | files mixing both line endings can parse differently once converted | line_ends_mixed_refuted |
| C59 | names differing in bytes that are not UTF-8 become the same member | search_file_names_distinct_refuted |
| C60 | tags with a colon are linked to as #ZgotmplZ | colon_link_refuted |
| C60 | tags with #, ? or %41 are linked to as another file | reserved_link_refuted |
| C61 | --section-tag/--section-path with --out succeed without writing a section that is no page | build_tag_refuted, build_path_refuted |
| C61 | the search index lists pages that a partial build does not write, and can replace a page | build_part_index_refuted, build_index_replaces_refuted |
| C62 | the caret of a parse error at a line feed is one left of the next line | report_column_refuted |
| C63 | a parse error at a line feed has a broken error page | error_page_complete_refuted |
| C63 | an error in a file that became shorter has a broken error page | error_page_changed_refuted |
| C64 | a wrong number of arguments is reported without file and line | located_arity_refuted |
| C64 | in an inline section it is reported at the section | located_section_refuted |
| C64 | a broken reference is shown at an invocation in its text | located_display_refuted |
| C65 | which of two targets of the same name in two partials is in the search index depends on the order of map iteration | repro_index_refuted |
| C65 | so does the order in which an error lists definitions | repro_error_refuted |
| C69 | a plugin path with a quotation mark imports other packages | program_imports_refuted |
| C70 | the server keeps showing a file that was replaced by an older one; it ignores --text-file-extension | server_older_refuted, server_text_refuted |
| C72 | a comment after an escaped backslash is highlighted as text; two closing braces in verbatim text as an error | lexer_comment_refuted, lexer_verbatim_refuted |
| C81 | a godoc reference without a dot, a definition of what is no invocation or has verbatim arguments crash the program | docs_no_panic_refuted |
| C83 | in text output the text of a section follows its title without anything between (section.tmpl trims the empty line) | titles_apart_refuted |
| C84 | --section-tag with --out for a section that is not a page of its own writes nothing and reports success; and --save-search-index then lists pages that are not written | section_written_refuted, index_written_refuted |
| C85 | --section-path for a file that the book already includes fails with an ambiguous reference when it refers to itself; writes nothing, successfully, when the book is not split; is left out of the search index | path_twice_refuted, path_written_refuted, path_index_refuted |
| C86 | An additional single-page version of chapters inside the book makes references to them ambiguous: the build fails | single_page_additional_refuted |
| C87 | The URL of an output frame is escaped twice, so one with an ampersand is not the frame's | site_frames_refuted |

## Properties

Every theorem below is closed under the global context.

### C01 Parsing always terminates (proved)

ast.Parse / ast.ParseReader returns (a node or an error) for every byte string: no input makes the parser loop or recurse forever, and its recursion depth is bounded by a linear function of the input length. For every finite byte string, valid UTF-8 or not. Code: ast/booklit.peg, ast/booklit.peg.go: parse, parseExpr, parseZeroOrMoreExpr, parseOneOrMoreExpr.

Proof: a rank on expressions decreases whenever no input is consumed (no left recursion, no loop over an empty match); induction on remaining input and rank (PegTotal.v).

* Props_Parser.v: `parse_terminates`, `rule_terminates`

### C02 Parsed documents are well shaped (proved)

Whenever a document parses, the result is a non-empty sequence of non-empty paragraphs of non-empty lines; every String node is free of CR and LF; every function name is a non-empty string over [a-z-]; and no semantic action panics on a type assertion. For every byte string that parses. Code: ast/booklit.peg, ast/booklit.peg.go: callon*, ast/node.go.

Proof: the interpreter agrees with a typed recursive-descent parser (DescentProofs.v, DescentRules.v), whose results have the shape (Shape.v).

* Props_Parser.v: `parse_shaped`, `actions_never_panic`, `string_one_line`

### C03 Escaped text is preserved by the parser (proved)

For every one-line text, escaping each backslash and brace with a backslash yields a document whose parse is one paragraph of one line consisting only of String nodes whose concatenation is exactly the text. For every non-empty valid UTF-8 text without line breaks that does not start with a blank. Code: ast/booklit.peg: String, Line, Paragraph.

Proof: a declarative grammar (Grammar.v) saying how trees are written; every derivation is parsed to its tree (GrammarParse.v); escaping derives the text.

* Props_Grammar.v: `escaped_text`, `grammar_sound`, `grammar_unambiguous`

For every non-empty valid UTF-8 text without line breaks not starting with a blank. leading_blank_refuted shows why the last condition is needed.

### C04 Inline verbatim arguments are byte-exact (proved)

\f{{{text}}} parses to an invocation of f with one argument made of String nodes whose concatenation is exactly text, whatever Booklit syntax the text contains. For every text without line breaks in which no closing triple brace occurs before its end, and every function name over [a-z-]+. Code: ast/booklit.peg: VerbatimArg, VerbatimLine, VerbatimString.

Proof: as C03, for verbatim arguments (Verbatim.v).

* Props_Grammar.v: `verbatim_exact`, `verbatim_argument`

As a whole document and as an argument in any context of the declarative grammar. verbatim_brace_refuted: text ending in a closing brace cannot be written this way.

### C05 Block arguments strip exactly the first line's indentation (proved)

In a verbatim block argument, the indentation of the first line is removed from every line and nothing else is changed: each line's content is the line minus that many leading blanks (or all its blanks if it has fewer). For every list of lines (any length, any indentation, CR/LF-free text without closing braces). Code: ast/booklit.peg: Indent, VerbatimBlock, VerbatimBlockLine, PreformattedBlock.

Proof: as C03, with the indentation of the block as a parameter of the derivation.

* Props_Grammar.v: `block_indentation`

For verbatim blocks that are not inside another block. nested_indent_refuted: a block inside a block uses the outer indentation, because the parser keeps it in one shared variable.

### C06 Comments nest and leave no trace (proved)

Every well-nested comment, of any nesting depth and content, is consumed as a whole wherever a comment is allowed, and a document with such a comment between two words, or on its own between paragraphs, evaluates to the same words as the document without it. For every well-nested comment body of any depth. Code: ast/booklit.peg: Comment, Word, CommentSpacing.

Proof: as C03; Written.v relates texts that differ in comments only.

* Props_Grammar.v: `comment_in_line`, `nested_comment`, `comments_no_trace`

Comments of any nesting after words and between paragraphs. Where the informal claim fails is recorded: comment_argument_refuted (directly after an invocation it is an argument), comment_line_refuted (on a line of its own it splits the paragraph), comment_blanks_refuted (blanks before it are dropped unless they belong to a text).

### C07 Source locations of invocations are exact (proved)

Every Invoke node's Location has an Offset at which the source has a backslash followed by the function name, Line equal to one plus the number of line feeds before it, and Col equal to one plus the number of characters since the last line feed. For every parsed document and every Invoke node nested anywhere in it. Code: ast/booklit.peg.go: read, restore, parseActionExpr, onInvoke1.

Proof: invariant tying the parser's position to the consumed prefix (Positions.v).

* Props_Parser.v: `invoke_located`

### C08 Line-ending style does not matter (proved)

Converting every LF of a document to CRLF changes neither whether it parses nor the resulting tree, except for byte offsets. For every document that contains no CR. Code: ast/booklit.peg: LineBreak, tests/line_endings_test.go.

Proof: simulation between the runs of the descent parser on the two texts, cursor by cursor; inside comments a line end takes one step on one side and two on the other (LineEnds.v).

* Props_LineEnds.v: `line_ends`, `line_ends_mixed_refuted`

For every document without carriage returns: it and its CRLF conversion are both rejected or parse into the same tree with the same lines and columns. A file that already mixes both styles is not covered, with a counterexample.

### C09 Rejected input is reported inside the file (proved)

If parsing fails, the reported location lies within the file: its offset is at most the file size and its line at most one more than the number of line feeds; a document that is not valid UTF-8 is always rejected. A syntax error is reported far enough: every document with the same text up to the reported place and a few bytes more is rejected at that place. For every byte string that does not parse. Code: ast/booklit.peg.go: failAt, addErr, parse, read, ast/errors.go: UnpackError, load/processor.go: EvaluateFile.

Proof: the recorded furthest failure is a position of the text (PegErrs.v); two runs on texts that agree beyond it are compared step by step (PegTwin.v).

* Props_Parser.v: `error_in_file`, `error_place_decides`, `invalid_utf8_rejected`, `encoding_error_exact`, `error_column_refuted`, `blank_document_refuted`

A syntax error is reported at a place such that the text up to it and eight more bytes decides that there is an error, and where. Findings: an error at a line feed is reported one line too far with column 0; empty documents and documents ending in a line of blanks do not parse.

### C10 Documents can be written for every syntax tree (proved)

Printing any syntax tree in normal form (paragraphs, lines, text, escapes, nested invocations with line arguments) and parsing it back yields the same tree up to source locations. For every normal-form tree of any size and nesting. Code: ast/booklit.peg, ast/node.go.

Proof: the printer derives, and derivations are parsed (WrittenProofs.v, GrammarParse.v).

* Props_Grammar.v: `print_parse`

Normal trees: text, escapes, empty groups, invocations with empty, line, paragraph and preformatted arguments, to any depth; preformatted blocks not inside one another.

### C11 Loading yields a consistent section tree (proved)

After any load, with any plugins that use the Section API, every child's Parent is the section listing it, no section is listed twice, and following Parent always ends at a section without parent (no cycles). For every document, file system, plugin set and evaluation depth. Code: load/processor.go: EvaluateNode, EvaluateFile, baselit/plugin.go: Section, IncludeSection, section.go.

Proof: the heap invariant is kept by every evaluation step, for arbitrary plugins (EvalProofs.v, EvalFrame.v).

* Props_Load.v: `loaded_children_point_back`, `loaded_children_listed_once`, `loaded_parents_end`, `loaded_section_is_top`, `load_keeps_earlier_sections`

For every history of loads (LoadFile and LoadFileIn) with any plugins that use the section API only.

### C12 Section numbers are unique and describe the position (proved)

Number() of a section is the dot-joined list of one-based positions on the path from the top section, empty only for the top, and two different sections of one tree never share a number. For every consistent section tree of any width and depth. Code: section.go: Number.

Proof: induction along the path from the top (NavProofs.v).

* Props_Tree.v: `number_describes_position`, `every_section_has_a_position`, `numbers_are_unique`, `number_empty_only_at_top`

### C13 Tag lookup is complete and position-independent (proved)

FindTag(name) called on any section of a tree returns every tag named name defined anywhere in the tree, each exactly once; calling it from another section of the same tree returns the same tags up to order. SimilarTags does the same for its predicate. For every consistent section tree, every pair of sections in it, every name. Code: section.go: FindTag, SimilarTags, filterTags.

Proof: the upward search visits each section of the tree once (TagProofs.v).

* Props_Tree.v: `find_tag_complete`, `similar_tags_complete`, `find_tag_position_independent`, `find_tag_scope`

SimilarTags for an arbitrary similarity predicate.

### C14 A reference resolves iff its tag is defined exactly once (proved)

Reference.Tag returns the tag when exactly one tag of that name exists in the tree; an unknown-tag error when none exists (unless optional); and an ambiguity error listing every definition when several exist; with AllowBrokenReferences it never fails. For every tree, reference position and tag multiplicity. Code: reference.go: Tag, resolve, Display.

Proof: case analysis over the complete set of definitions (QueryProofs.v).

* Props_Tree.v: `reference_resolution`, `broken_references_never_fail`

### C15 A resolved reference never changes its mind (proved)

Once Reference.Tag has returned a real tag, every later call returns the same tag whatever is added to the tree in between; failures are not remembered. For every history of calls interleaved with tree changes. Code: reference.go: Tag, resolve.

Proof: state machine over arbitrary histories of heaps (RefCache.v).

* Props_Tree.v: `resolved_reference_is_stable`, `only_real_tags_are_remembered`, `failures_are_not_remembered`

### C16 Tree queries agree with the tree (proved)

Contains is exactly the reflexive descendant relation, IsOrHasChild its one-step version, Top the unique parentless ancestor, Depth the distance to it, FilePath the path of the nearest ancestor that came from a file. For every consistent tree, every pair of sections. Code: section.go: Contains, IsOrHasChild, Top, Depth, FilePath.

Proof: induction over consistent heaps (TreeProofs.v).

* Props_Tree.v: `contains_is_descendant`, `is_or_has_child_is_one_step`, `top_is_parentless_ancestor`, `depth_is_distance_to_top`, `file_path_is_nearest`

### C17 Next-navigation visits every split page once, in order, and stops (proved)

Starting at the top section and following Next enumerates exactly the sections reachable through split parents, in depth-first order, each once, and then returns nil; Prev is the previous sibling or else the parent. For every consistent tree and every assignment of SplitSections. Code: section.go: Next, NextSibling, Prev.

Proof: Next is the successor in the depth-first listing (NavProofs.v).

* Props_Tree.v: `next_visits_split_pages_once`, `split_listing_exists`, `prev_is_sibling_or_parent`, `prev_of_top_is_nil`

### C18 Every section is rendered on exactly one page (proved)

Each section of a tree has exactly one page owner (itself or an ancestor), and the sections rendered inline by a page are exactly those it owns; so over all written pages every section appears exactly once. For every consistent tree and every assignment of SplitSections. Code: render/common.go: sectionPageOwner, render/html/section.tmpl, render/writer.go: WriteSection.

Proof: page ownership is the unique non-inlined ancestor (WriterProofs.v).

* Props_Pages.v: `page_owner_is_unique`, `every_section_on_exactly_one_page`, `page_shows_what_it_owns`

### C19 No dangling page links (proved)

The page part of the URL of any tag of any section in the tree is the name of a file that WriteSection writes when given the top section. For every consistent tree, every tag in it, every file extension. Code: render/common.go: sectionURL, render/writer.go: WriteSection, writeSingleSection.

Proof: URLs computed through page ownership (NavProofs.v).

* Props_Pages.v: `tag_urls_point_to_pages`, `no_dangling_page_links`

### C20 WriteSection writes exactly the pages (proved)

WriteSection writes one file per section whose parent is absent or split, in depth-first order, named after its primary tag, and nothing else; when primary tags of pages are distinct no page overwrites another; at the first render error it stops. For every consistent tree, every engine outcome. Code: render/writer.go: WriteSection, writeSingleSection.

Proof: induction over the list of pages.

* Props_Pages.v: `write_section_writes_pages_in_order`, `pages_are_pages`, `pages_are_distinct`, `write_section_success`, `write_section_failure`, `pages_overwrite_each_other_refuted`

The file system is modelled as a map; os.OpenFile failures via a predicate.

### C21 Link fragments exist on the linked page (proved)

With the bundled HTML templates the fragment of the URL of a section tag, or of a target collected from a title or body outside partials, is the id of an anchor rendered on the page named by the URL. For every loaded document and tag. Code: render/common.go: sectionURL, render/html/section.tmpl, render/html/target.tmpl, stages/collect.go.

Proof: anchors written by the templates against tags collected (HtmlAnchors.v).

* Props_Anchors.v: `fragments_exist`, `base_fragments_exist`, `partial_fragment_refuted`, `styled_fragment_refuted`

For every consistent tree whose sections have the default style, and for every document loaded with the base plugin: the URL of each tag of a section or of a target shown in its title or body names the owning page, and the fragment is the id of an anchor token of that page's rendering. Targets in partials and sections styled like another bundled template have no anchor (_refuted).

### C22 The search index covers exactly the tags of the tree (proved)

The search index has one entry per tag name occurring in the tree, describing a tag of that name (the last in depth-first order when a name is repeated): its URL, title, depth and owning section's primary tag, and its own text or else its section's body text. For every consistent tree. Code: render/writer.go: loadTags, WriteSearchIndex.

* Props_Pages.v: `search_index_contents`, `search_index_entry`, `search_index_succeeds`

The String() methods are a parameter of these theorems.

### C23 Default tags are safe file names (proved)

The default tag of any title consists only of lower-case ASCII letters, digits, underscore and hyphen, so the page file name derived from it contains no path separator; letters and digits of the title all survive, lower-cased and in order. For every title text, including invalid UTF-8. Code: section.go: defaultTag, SetTitle.

* Props_Content.v: `default_tag_is_safe`, `default_tag_file_has_no_separator`, `default_tag_keeps_letters`, `ampersand_only`, `default_tag_words`, `default_tag_of_words`, `default_tag_and`, `default_tag_empty_refuted`

Finding: titles without ASCII letters or digits get an empty default tag.

### C24 StripAux removes auxiliary content and nothing else (proved)

StripAux leaves no Aux wrapper in the result, removes exactly the Aux elements of sequences, paragraphs, lists, tables, keeps all other text in order, is idempotent, and does not touch content without Aux. For every content value of any shape. Code: aux_.go.

Proof: induction on contents.

* Props_Content.v: `strip_aux_removes_aux`, `strip_aux_keeps_the_rest`, `strip_aux_idempotent`, `strip_aux_identity`, `strip_aux_crashes_iff`, `strip_aux_total_refuted`, `strip_aux_drops_all_aux_text_refuted`

Findings: StripAux crashes on references and targets without content; Aux directly inside a style or link is only unwrapped.

### C25 Append concatenates content (proved)

Appending one content to another yields a sequence whose elements are those of the first followed by the second, and appending nil is the identity; folding it over a list yields the flat sequence of the list. For every pair/list of contents. Code: append.go.

* Props_Content.v: `append_one`, `append_to_nil`, `append_nil_is_identity`, `append_fold`, `append_variadic_refuted`

The statement, which is about the one-element form (the only one used), is proved; that the variadic form appends all its arguments is refuted.

### C26 IsFlow is decided by block leaves (proved)

A content is flow exactly if no block-level content (paragraph, list, table, definitions, preformatted, table of contents, section, block-styled or block-lazy) occurs at a sequence/style/link/aux position of it. For every content value. Code: sequence.go, styled.go, lazy.go, paragraph.go, link.go, aux_.go.

Proof: induction on contents.

* Props_Content.v: `flow_iff_no_block_part`

### C27 Evaluation keeps the paragraph structure (proved)

Evaluating a document whose invocations are free of side effects yields, in order, one paragraph per source paragraph with one line per source line that produced content; a paragraph consisting of a single block is replaced by the block; paragraphs producing nothing vanish. For every syntax tree. Code: stages/evaluate.go: VisitParagraph, VisitPreformatted, VisitSequence, VisitString.

Proof: a big-step relation following the tree (EvalSpec.v) equivalent to the evaluator (EvalTheory.v).

* Props_Evaluate.v: `evaluation_follows_tree`, `tree_is_evaluated`, `document_structure`

### C28 Functions dispatch to the first plugin that defines them (proved)

Invoking a function calls the method of the first plugin, in registration order, that has it; if none does the load fails with an undefined-function error carrying the name and location, and no plugin code runs. For every section plugin list, every function name. Code: stages/evaluate.go: VisitInvoke, ast/node.go: Method.

* Props_Evaluate.v: `call_dispatches_to_first_plugin`, `undefined_function_fails`

### C29 Arity is enforced before evaluation of arguments (proved)

A call with the wrong number of arguments (not equal, or fewer than the fixed ones for variadic methods) fails without evaluating any argument or running the method; otherwise the method receives exactly the given arguments in order. For every method signature and argument list. Code: stages/evaluate.go: VisitInvoke, convert.

* Props_Evaluate.v: `wrong_arity_fails`, `arguments_are_passed_in_order`

### C30 Plugin errors surface unchanged or wrapped once (proved)

An error returned by a function aborts the load: an error that is already pretty is returned as is, any other is wrapped with the function name and location; content following it is not evaluated. For every document position and every error. Code: stages/evaluate.go: VisitInvoke, errors.go.

Proof: a relation saying when evaluation fails (EvalSpec.v) equivalent to the evaluator (EvalFail.v).

* Props_Evaluate.v: `evaluation_error_is_a_failure`, `failure_aborts_evaluation`, `failure_stops_evaluation`, `returned_errors_surface`, `errors_are_wrapped_once`

### C31 A section's title is set at most once (proved)

After a successful load no section has had a second non-empty title accepted; a second \title in the same section fails the load with a title-twice error pointing at both. For every document. Code: baselit/plugin.go: Title, section.go: SetTitle.

Proof: relation between the sections before and after (EvalOnce.v).

* Props_Evaluate.v: `title_is_set_once`, `second_title_fails`

Plugins other than the base plugin are assumed not to call SetTitle themselves.

### C32 single-page overrules split-sections below it (proved)

A section evaluated while it or an ancestor is marked single-page never gets SplitSections; and every section that called split-sections has ResetDepth so header depths are kept. For every document and plugin program using the section API. Code: baselit/plugin.go: SinglePage, SplitSections, section.go: SplitSectionsPrevented.

* Props_Evaluate.v: `single_page_prevents_splitting`, `split_sections_reset_depth`, `single_page_afterwards_refuted`

Plugins other than the base plugin are assumed not to set SplitSections themselves. Finding: \single-page after \split-sections in the same section does not undo it.

### C33 Inline sections inherit plugins, included ones do not (proved)

An inline section starts with exactly the plugins its parent has at that moment; an included file starts with only the base plugin; plugins used by a child never leak to its parent or siblings. For every document. Code: baselit/plugin.go: Section, IncludeSection, UsePlugin, load/processor.go: evaluateSection.

* Props_Evaluate.v: `inline_section_inherits_plugins`, `included_section_has_base_plugin`, `plugins_do_not_leak`

### C34 Includes are relative to the including file (proved)

The file loaded by \include-section{p} is p resolved against the directory of the file containing the call, even inside nested inline sections. For every nesting of inline sections and path. Code: baselit/plugin.go: IncludeSection, section.go: FilePath.

* Props_Evaluate.v: `include_is_relative_to_file`, `included_section_has_base_plugin`
* Props_Choose.v: `section_files`

### C35 Loading a document does not crash (proved)

Loading any document with only the base plugin returns a section or an error; it does not panic. For every document. Code: stages/evaluate.go: convert, VisitInvoke, aux_.go, baselit/plugin.go.

Proof: triples over the evaluator with the only ways to panic as exceptions (EvalEnds.v, LoadEnds.v); an inductive description of the panics, proved exact by induction on fuel and on derivations (CrashSpec.v, EvalCrash.v).

* Props_Ends.v: `load_no_panic_refuted`, `load_panics`, `load_no_panic`, `nil_partial_fails`, `plugin_panics_refuted`

The claim is false: load_no_panic_refuted gives four parsed documents that panic. load_panics says exactly which loads panic, for every document and every history of loads: those whose evaluation comes to an argument standing for no content, or to a title without tags that holds a reference or target without contents of its own. load_no_panic: files passing a syntactic check never panic.

### C36 The parse cache never serves stale content (proved)

Evaluating a file uses the syntax tree of the file's current content, whatever earlier loads and file changes happened. For every history of file writes and loads, including concurrent ones. Code: load/processor.go: EvaluateFile.

Proof: invariant of a transition system: what is cached was read at that modification time (CacheProofs.v).

* Props_Cache.v: `cache_fresh`, `cache_current`, `cache_granularity_refuted`, `cache_backwards_refuted`

Proved when modification times distinguish versions; false otherwise, with witnesses for equal and for decreasing modification times.

### C37 Template reloading reflects the template directory (proved)

After LoadTemplates returns without error, the engine's templates are the bundled ones overridden by the files currently in the directory. For every history of template directory changes and LoadTemplates calls. Code: render/html.go: LoadTemplates, render/text.go: LoadTemplates.

Proof: invariant over histories of directory states (TemplatesProofs.v).

* Props_Templates.v: `templates_valid`, `templates_bundled`, `templates_override`, `templates_stat`, `templates_unchanged`, `templates_deleted_refuted`, `templates_failed_refuted`, `templates_older_refuted`, `templates_empty_refuted`

Proved for histories without deletions, with newer times for new contents and a change after a failed load; false otherwise, with witnesses.

### C38 Lazy content is computed exactly once (proved)

However many goroutines force a Lazy concurrently, its function runs at most once, and every Force that returns returns that run's result. For every number of goroutines and every interleaving. Code: lazy.go.

Proof: invariants of a transition system with any number of goroutines (LazyProofs.v).

* Props_Lazy.v: `lazy_once`, `lazy_result`, `lazy_agree`, `lazy_progress`, `lazy_terminates`

sync.Once as a state machine with any number of goroutines. lazy_panic_refuted: if the function panics later calls return nothing.

### C39 The server serves every page under its URL (proved)

Requesting the path of the URL of any page of the book serves the section owning that page when tags are unique; '/' serves the section tagged index; a path that names no tag is delegated to the file server. For every tree and request path. Code: booklitcmd/server.go: ServeHTTP, loadRequestedSection.

* Props_Server.v: `server_page`, `server_loaded`, `server_root`, `server_response`, `server_untitled_refuted`, `server_front_refuted`

Request paths begin with a slash. server_untitled_refuted: a page without title is not served; server_front_refuted: '/' serves nothing unless a section is tagged index.

### C40 Error annotation never crashes and splits the line faithfully (proved)

Rendering the source snippet of any error location does not panic, and prefix, annotated part and suffix concatenate to the source line. For every error location and file content. Code: errors.go: AnnotatedHTML, AnnotateLocation, lineInQuestion.

* Props_Annotate.v: `annotated_parts`, `annotated_right_line`, `annotated_function`, `annotated_column_refuted`, `annotated_end_refuted`, `annotated_utf8_refuted`, `annotated_buffer_refuted`

Proved for columns from 1, ASCII before the mark and lines shorter than the reader's buffer; false otherwise: column 0 panics, marks past the end of a line show nothing of it, columns count characters but bytes are cut, long lines are counted as several.

### C41 Anchor queries agree with the tags (proved)

AnchorTags returns exactly the section's tags with an anchor, in order; HasAnchors is true iff the section or one of its transitively inlined descendants has an anchored tag. For every consistent tree. Code: section.go: HasAnchors, AnchorTags.

* Props_Tree.v: `has_anchors_spec`, `anchor_tags_in_order`

### C42 Tables of contents list every visible section once (proved)

The table of contents of a section lists exactly its descendants that have no proper ancestor (up to and including the section) omitting its children, in depth-first order, each with its number and URL. For every consistent tree and assignment of the omit flag. Code: render/html/toc.tmpl, render/text/toc.tmpl, toc.go.

* Props_Toc.v: `toc_lists`, `toc_text_lists`, `toc_rendered`, `untitled_toc_refuted`

HTML and text tables of contents: one entry per listed section, depth-first, interleaved with markup that shows nothing; rendered whenever every entry can be. Refuted for untitled sections: they have no URL, so the HTML table is an error.

### C43 Text rendering preserves text (proved)

With the bundled text templates, rendering strings, sequences, paragraphs and preformatted content emits their text, lines joined by one space and one newline respectively; content without a bundled template is an error, never silently dropped. For every content value. Code: render/text.go, render/text/*.tmpl.

* Props_Text.v: `text_exact`, `text_plain_ok`, `text_never_drops`, `text_page_sections`, `text_page_never_drops`, `html_page_sections`, `text_title_separated_refuted`, `text_styled_page_refuted`

Exact output for strings, sequences, paragraphs, preformatted, inset and auxiliary content; anything without a template makes the rendering fail. Pages consist of their sections in depth-first order.

### C44 Document text cannot inject HTML (proved)

With the bundled HTML templates every character of document text appears escaped: the rendered markup is balanced and its tags come only from the templates. For every content built by the base plugin. Code: render/html.go, render/html/*.tmpl.

Proof: output read back with an independent tokenizer (HtmlSpec.v), composition of tokenized pieces (HtmlProofs.v).

* Props_Html.v: `html_content_wellformed`, `html_page_wellformed`, `base_pages_wellformed`, `html_string_exact`, `html_text_shown`, `html_link_url`, `base_raw_html_refuted`, `base_page_style_refuted`

For every heap and content free of the raw-html style: the output tokenizes with an independent strict tokenizer, is balanced, contains only template elements and attributes, and URLs have only harmless schemes; holds for all documents loaded with the base plugin unless a section is given the style raw-html, in which case the claim is false (base_raw_html_refuted). Text is shown unchanged up to white space. Templates are modelled by the strings they write.

### C45 Partials behave like a map (proved)

Partial(name) returns the content most recently set under name, nil if never set, and setting one name never affects another. For every history of SetPartial calls. Code: section.go: SetPartial, Partial.

* Props_Content.v: `partials_behave_like_a_map`, `fresh_section_has_no_partials`

### C46 Tables and definitions are validated (proved)

\table succeeds iff every row is a list and then has exactly those rows; \definitions succeeds iff every item is a two-element list and then pairs them in order. For every list of arguments. Code: baselit/plugin.go: Table, TableRow, Definitions, Definition.

* Props_Functions.v: `table_needs_lists`, `definitions_need_pairs`, `table_in_document`

### C47 Slow-invoke warnings are consistent (proved)

For every invocation the slow warning is logged at most once, exactly one completion line is logged, and it says slow exactly if the timer fired before completion. For every interleaving of the timer goroutine and the invocation. Code: stages/evaluate.go: VisitInvoke.

Proof: invariants of a transition system (SlowProofs.v).

* Props_Slow.v: `slow_warned_once`, `slow_end_once`, `slow_end_after`, `slow_fast_silent`, `slow_finished_warned`, `slow_exclusive`, `slow_progress`, `slow_order_refuted`

Timer goroutines and evaluating goroutines of any number of invocations sharing the mutex. slow_order_refuted: 'still running' can be logged after 'finished'.

### C48 Header depths are valid HTML and follow resets (proved)

headerDepth is between 1 and 6 and equals one plus the number of ancestors up to the nearest depth reset, capped at 6. For every consistent tree. Code: render/html.go: headerDepth, section.go: PageDepth.

* Props_Tree.v: `header_depth_follows_resets`, `header_depth_is_valid_html`

### C49 Evaluated text equals source text (proved)

The text (String) of the evaluated body of a document without invocations is the concatenation of its String nodes, with a space between lines and a blank line after each paragraph. For every invocation-free syntax tree. Code: stages/evaluate.go, string.go, sequence.go, paragraph.go, preformatted.go.

* Props_Evaluate.v: `text_documents_keep_their_text`

For documents whose lines all have text; Preformatted blocks excepted.

### C50 Collection finds every target once (proved)

After loading, a section's tags are its title tags followed by one anchored tag per target occurring in its title, body and partials outside the text of references and other targets, in order (partials in any order), and targets inside a child section belong to that child only. For every document/section tree and every map iteration order. Code: stages/collect.go.

Proof: the collector against an occurrence relation (CollectSpec.v, CollectProofs.v).

* Props_Load.v: `collection_finds_every_target`, `collection_adds_targets`, `collection_of_nested_targets_refuted`, `collection_of_nil_partial_refuted`

Findings: targets inside another target or a reference are not collected; a nil partial panics the collector.

### C51 References and titles record where they were written (proved)

The location recorded for a reference, target or title is that of its own invocation. For every document. Code: stages/evaluate.go: VisitInvoke (InvokeLocation), baselit/plugin.go: Reference, Target, Title.

* Props_Functions.v: `reference_location_exact`, `target_location_exact`, `title_location_exact`, `own_location_refuted`, `reference_location`, `target_location`, `title_location`, `own_location_partial`

The claim as stated is false (own_location_refuted): a nested invocation overwrites the location. The exact theorems say, for every document with the base plugin only, which location is recorded: that of the last invocation in the arguments, or else its own. With other plugins: its own or a nested one.

### C52 Syntax-highlight transformers preserve the text (proved)

Transformer.TransformAll splits a string into the unmatched pieces in order and the transformed matches, losing and duplicating nothing; SyntaxTransform applies this only to strings. For every string and every set of regexp matches. Code: chroma/plugin.go: TransformAll, SyntaxTransform.

* Props_Chroma.v: `transform_all_pieces`, `splits_unique`, `transform_seq_rewritten`, `syntax_text`, `transform_raw_refuted`

Regular expressions by the contract of FindAllStringIndex; lexer and formatter as their output. transform_raw_refuted: text made by a transformer goes out unescaped.

### C53 Function names map to method names predictably (proved)

The method name of a function is its hyphen-separated words with the first letter upper-cased; functions whose words agree call the same method, and names with different words call different methods. For every function name the parser can produce. Code: ast/node.go: Method.

* Props_Content.v: `method_names_follow_words`, `method_name_of_words`, `title_case_of_word`

### C54 Plugin registration is last-wins (proved)

LookupPlugin(name) finds the factory most recently registered under that name and fails exactly when none was. For every history of registrations. Code: plugin.go.

* Props_Content.v: `plugin_registration_is_last_wins`

### C55 Loading terminates (proved)

Loading a document terminates whatever files include one another. For every file system. Code: baselit/plugin.go: IncludeSection, load/processor.go: EvaluateFile.

Proof: well-founded induction on the include relation (EvalEnds.v, LoadEnds.v).

* Props_Ends.v: `load_ends_refuted`, `load_ends`, `load_ends_direct`

The claim is false for files that include one another in a cycle (load_ends_refuted: a file including itself). For every finite file system without such a cycle evaluation ends, except where C56's endless titles are concerned (load_ends); with titles that show no other titles it ends (load_ends_direct).

### C56 Rendering text of titles terminates (proved)

String() of any loaded content terminates. For every document. Code: reference.go: String, section.go: SetTitle.

Proof: well-foundedness of the relation between shown titles (StringEnds.v).

* Props_String.v: `string_ends`, `string_ends_refuted`, `string_unique`, `string_ends_direct`

As stated the claim is false: the title of a section may refer to the section, and then String() never ends (string_ends_refuted). string_ends says exactly when it ends: for every content of every book loaded with the base plugin, String() has a result iff no endless chain of titles shown by references starts there; it never fails otherwise. string_ends_direct: books whose titles contain no reference without a text of its own are fine.

### C57 References link to their tag and show the right text (proved)

In HTML a reference is a link to the page and place of the one tag with its name, around its own content or else the tag's title; a missing tag gives the content of an optional reference and an error otherwise; several tags are an error; with broken references allowed the errors become links to #broken. For every tree, reference and content. Code: reference.go, render/html/reference.tmpl, render/common.go: sectionURL.

Proof: C13's search and C19's URLs composed with the template.

* Props_Refs.v: `tag_address`, `reference_links`, `reference_missing`, `reference_ambiguous`, `reference_broken`, `optional_reference_refuted`

For every consistent tree: the URL of a tag, exactly; what a reference becomes in HTML when its name has one, no or several definitions, with and without broken references allowed. An optional reference without content to a missing tag makes rendering fail (refuted).

### C58 String() says what the content says (proved)

String() of a content is determined by its parts: sequences concatenate, paragraphs join with spaces and end with a blank line, list items are numbered from 1 and indented, tables and definitions are written row by row, references say their content, their tag's title or what is wrong. For every content and tree. Code: string.go, sequence.go, paragraph.go, list.go, table.go, definitions.go, reference.go: String, section.go: String.

Proof: a mutually inductive big-step specification (Says.v) both ways.

* Props_Says.v: `string_says`, `string_says_exactly`

A big-step specification of String() for every content kind; sound on every consistent tree, and exact for the contents of every book loaded with the base plugin.

### C59 The search index file is readable JSON (proved)

The file written by WriteSearchIndex is one line of JSON: an object with exactly one member per tag name of the book, in byte order of the names, whose fields read back as the entry's location, title, text, depth and section tag; bytes that are not UTF-8 are replaced by U+FFFD; it contains no raw <, > or &. For every book, every text in it. Code: render/writer.go: WriteSearchIndex.

Proof: bytes as encoding/json writes them (Json.v) read back with a functional reader (JsonSpec.v, JsonProofs.v).

* Props_Json.v: `search_file_reads_back`, `search_file_reads_mended`, `mended_form`, `search_file_bytes`, `search_file_written`, `search_file_error`, `search_file_names_distinct_refuted`

The bytes encoding/json produces for the index (strings, integers, a struct, a map sorted by keys) against an independent reader of JSON. Two names that differ only in bytes that are not UTF-8 become members of the same name (refuted).

### C60 Links between pages lead somewhere (proved)

In a built book every href is either a link the author wrote, with its URL percent-encoded, or leads to the file of a page of the book and, if it names a place, to an anchor that page contains. For every document, every page of it. Code: render/html/*.tmpl, render/common.go: sectionURL, render/writer.go.

Proof: every token of a page is traced to a content or a tag (HtmlLinks.v); URLs are followed by an independent reader (UrlSpec.v); every created section is in the tree (Listed.v).

* Props_Links.v: `page_links`, `loaded_sections_in_tree`, `site_links`, `colon_link_refuted`, `reserved_link_refuted`

page_links: every tree with clean content. site_links: every book loaded with the base plugin from an empty processor, sections of the default style, broken references not allowed, tag names without # ? % / : NUL; links to targets in partials excepted (C19: partials are not shown). For tag names with : the link is #ZgotmplZ, with # ? or %41 another file (refuted).

### C61 A build produces the site (proved)

A successful build writes exactly the pages of the chosen section (and the index of the book on request) and nothing else, or prints the page when there is no destination; every page of a whole book is well-formed and its links lead to files that were written; --section-tag fails exactly for tags the book does not have; before everything is loaded nothing is written. For every set of files (as bytes), option, destination directory. Code: booklitcmd/command.go: Build, load/processor.go, render/writer.go.

Proof: composition of C01, C02, C20, C44, C59, C60 (Command.v, Props_Command.v).

* Props_Command.v: `build_chooses`, `build_unknown_tag`, `build_prints`, `build_writes`, `build_names`, `build_fails`, `build_site`, `build_tag_refuted`, `build_path_refuted`, `build_part_index_refuted`, `build_index_replaces_refuted`

From the bytes of the files through parser, evaluation, collection and rendering to the bytes of the site. The first six are for whatever pages the templates give. build_site: base plugin, whole book, HTML, the conditions of C60, distinct page names. Building a section that is no page writes nothing; the index is always that of the whole book and can replace a page (refuted).

### C62 Error reports show the place of the error (proved)

The printed report of an error that knows its place begins with file and line and what is wrong, followed by the source line with a row of carets below exactly the invocation; similar tags and other definitions are all listed; an error within an error follows with every line indented and none lost. For every error, nesting depth, document and position, including characters of several bytes. Code: errors.go: PrettyPrint, Annotate, AnnotateLocation, booklitcmd/main.go.

Proof: model Report.v; lemmas on texts made of whole lines; function_line of C40.

* Props_Report.v: `report_headline`, `report_plain`, `report_lines`, `report_nested`, `report_carets`, `report_points`, `report_similar`, `report_ambiguous`, `report_title_twice`, `report_column_refuted`

Columns count from one and lines are shorter than the buffer (C40). At a line feed the caret of a parse error is in the wrong place (refuted).

### C63 Error pages are complete and harmless (proved)

The page shown for an error is well-formed HTML made of the template's elements whose text is the explanation of the error with its source line, the invocation marked; nothing in names, messages or source becomes markup; the page is always complete. For every error and file content. Code: errors.go: PrettyHTML, AnnotatedHTML, ErrorResponse, errhtml/*.tmpl.

Proof: model Report.v; a reading of HTML as in C44 with the text it says (ErrorPage.v); the templates are read from their text and executed (ErrSrc.v, ErrTmpl.v), which gives the same HTML (ErrTmplProofs.v).

* Props_ErrorPage.v: `error_page_says`, `error_page_frame`, `error_page_marks`, `error_page_complete`, `error_page_function`, `error_page_complete_refuted`, `error_page_changed_refuted`
* Props_ErrTmpl.v: `error_templates_parse`, `error_templates_give`, `error_page_template`

The HTML is what executing the text of errhtml/*.tmpl gives (error_templates_give). Complete whenever the source lines can be read and columns count from 1; parse errors at a line feed, and files that changed, break the page (refuted).

### C64 Errors tell the place they arose at (proved)

An error of loading or rendering a book names the file and position of the invocation that caused it, in whichever included file and however deeply nested, and at that position the file has that very function name; references that do not resolve name the reference and every definition of the tag; the printed report shows that line with the invocation underlined. For every disk of files, document, nesting of sections and includes, sequence of loads, and order of map iteration. Code: stages/evaluate.go, baselit/plugin.go, load/processor.go, reference.go, errors.go, booklitcmd/command.go.

Proof: spec LocSpec.v; an invariant of the heap (every mark of a section lies in the section's file) and a postcondition of every step of evaluation (EvalAt.v), of collection (CollectAt.v) and of rendering (RefAt.v).

* Props_Located.v: `located_load`, `located_marks`, `located_reference`, `located_text`, `located_mark`, `located_report`, `located_somewhere`, `located_build`, `located_arity_refuted`, `located_section_refuted`, `located_display_refuted`

With the base plugin. A wrong number of arguments has no place of its own (refuted), and the place of a reference or title is that of the last invocation in its arguments, if any (refuted; see C51).

### C65 Builds are reproducible (proved)

Go visits the entries of a map in an order that may differ from run to run. Whatever that order, building a book ends the same way, and the same bytes are written to the same pages; failures are the same up to the order in which they list suggestions and definitions. If no section registers a name twice, the search index is the same as well; otherwise it may differ. For every document, plugin, engine, set of options (with --section-path: plugins that do not look at the order of tags), and pair of orders of map iteration. Code: stages/collect.go, section.go, reference.go, render/html.go, render/text.go, render/writer.go, booklitcmd/command.go.

Proof: spec ReproSpec.v; each step of collection denotes a bag of (section, target), the same for both orders (Repro.v); everything that reads a heap gives the same for heaps that differ in the order of collected tags (ReproRead.v, ReproIndex.v), evaluating a further file included (ReproEval.v).

* Props_Repro.v: `repro_load`, `repro_pages`, `repro_build`, `repro_index_refuted`, `repro_error_refuted`

Without --section-path for any plugins (they are functions of the model's state). With --section-path the second file is evaluated over a heap whose tags may be in another order; there the plugins must not look at the order of tags (indifferent), which holds of the base plugin (base_indifferent).

### C66 The bundled templates do what is said of them (proved)

The templates that come with both engines parse and can be escaped, so that starting does not panic. Executing them, by the rules of Go's template language and of its HTML escaping, gives for each content and each page the bytes that the model of rendering gives, fails when that fails, with the same error of a reference, and goes on for ever when that does. For every tree of sections, content, and page; both engines; every extension of text pages. Code: render/html.go, render/text.go, render/html/*.tmpl, render/text/*.tmpl, render/bindata.go.

Proof: spec TmplSpec.v (same_results); the interpreter of templates is run on the text of the bundled templates (TmplSrc.v); per template a lemma (TmplHtml.v, TmplText.v), then induction over both bounds (TmplFuel.v, TmplTextFuel.v).

* Props_Tmpl.v: `bundled_parse`, `reference_same`, `reading_bounds`, `bundled_html_renders`, `bundled_html_pages`, `bundled_text_renders`, `bundled_text_pages`

Relative to the model of text/template and html/template in Tmpl.v, TmplEsc.v and TmplExec.v. Errors other than those of references and of unforced contents are not told apart.

### C67 Documents cannot write markup, whatever the templates (proved)

With the bundled templates, and with any templates added to them that do not use rawHTML, an HTML page consists of text written in the templates, of text without any of < > and quotes, and of the text of those contents that have the style raw-html. Where a template inserts other content with rawHTML this does not hold. For every document, every set of templates of which only raw-html.tmpl uses rawHTML, every page. Code: render/html.go, render/html/raw-html.tmpl.

Proof: spec TmplSafeSpec.v (inert, made, occurs, raw_only_there); invariant of values in the interpreter (good), induction over templates and the nesting (TmplSafe.v).

* Props_Safe.v: `pages_made`, `contents_made`, `plain_templates`, `bundled_safe`, `own_safe`, `raw_templates_refuted`

Relative to the model of html/template. raw_templates_refuted shows that the condition on rawHTML is needed.

### C68 A template matters only where it is used (proved)

Adding or replacing templates changes only pages of which rendering needs one of these, and those of a style for which a page template is among them. For every document, every two sets of templates, both engines. Code: render/html.go, render/text.go.

Proof: runs with more templates or more depth are related by one lemma about executing a template with better results of the rest (TmplMono.v).

* Props_Safe.v: `more_templates`, `other_templates`, `other_templates_page`, `more_depth`

Relative to the model of text/template and html/template.

### C69 The command's exit status tells whether it did what was asked (proved)

The command exits with 0 only when all pages asked for have been written or printed, with the templates given and the bundled ones otherwise. When anything fails (templates, loading, an unknown tag, rendering, writing, compiling or starting the program with the plugins) it exits with 1 after a message ending in a line feed, and what fails before the first page leaves the destination alone. With --plugin it does what the program with these plugins compiled in does without the option, with the same status; that program imports exactly booklitcmd and the plugins, if their paths contain no quotation mark, backslash or line feed. For every command, every plugin set, every directory of templates, every disk. Code: booklitcmd/main.go, booklitcmd/command.go.

Proof: Program.v: Main, Execute, Build with templates, reexec; the statuses by cases over Command.build_with (C61) and Templates.load (C37); the bundled templates through C66; pages of other templates through C67; a small reader of Go imports as the specification of the generated program.

* Props_Program.v: `program_status`, `program_broken`, `program_asked`, `program_templates`, `program_plugins`, `program_bundled`, `program_no_templates`, `program_made`, `program_imports`, `program_imports_refuted`

Reading the command line, go install and starting a process are inputs of the model. program_bundled carries what is proved of Command.build (C60, C61, C64, C65) over to the command. The text of a panic and what is printed of a page that fails are not modelled.

### C70 The server shows what is on disk now, as a build would write it (proved)

A reply of the server depends on the files, the templates and the path of the request only, not on earlier requests, as long as a file or template that has changed has a later time than before (and, for templates, none is deleted and a failed load is followed by a change). For a page of the book it is byte for byte the file that a build would write at that moment with the same options. For every sequence of requests with such changes in between, every book, plugins and templates. Code: booklitcmd/server.go, load/processor.go, render/html.go.

Proof: Serve.v: the handler with its parse cache and template engine as state; evaluation with two caches that hold what files held is related step by step (CacheFree.v); templates through C37; the build through C61 and C69.

* Props_Serve.v: `server_forgets`, `server_replies`, `server_parses_once`, `server_builds`, `server_site`, `server_older_refuted`, `server_text_refuted`

Requests one after the other; C36 is about the cache under concurrent requests. server_site: base plugin, titled page, tag of its own. Files replaced by older ones keep being shown, and --text-file-extension is ignored by the server (refuted). The file server and headers are not modelled.

### C71 Each function of the base plugin does what it is for (proved)

Every function of the base plugin other than \section and \include-section, called with any arguments: the content it stands for (style, link, image, list, table, definitions, reference, target, table of contents, aux) is made of its arguments as given, or exactly the fields of its section it is about are set (title with its tags, style, partial, plugin, page splitting), nothing else changing; or it gives the documented error. For all arguments, sections and states, with any other plugins in use. Code: baselit/plugin.go, section.go, stages/evaluate.go.

Proof: BaseSpec.v: for each function, by its name in documents, the content it makes, the fields it sets (all others equal, field by field) or the error it returns; BaseRuns.v proves each method against it; lifted to invocations through the evaluation relation.

* Props_Base.v: `functions_all`, `functions_do`, `functions_end`

\section and \include-section are in C33 and C34. A title without tags and without a text (its text cannot be had) is left out: it fails in some way. Where a plugin used before the base plugin has the name, that one is called (C28).

### C72 Booklit documents are highlighted as what they are (proved)

The lexer for Booklit documents gives tokens for every text that together are the text, and none is empty. In a document functions are keywords, braces built-in names, verbatim text and comments (which nest) are of their types with their delimiters, and all else is text. Only single backslashes that no name and nothing to escape follows, and in verbatim text braces that another or nothing follows, are marked as errors. For all texts; all documents made of plain text, functions, escapes, braces, verbatim text and nested comments. Code: chroma/booklit_lexer.go.

Proof: Lexer.v: the rules as tables and chroma's engine; Props_Lexer.v: a grammar of documents giving the type of each character (comments nest), proved by showing that each piece is consumed by the engine with its types whatever follows; errors by inversion of the rules.

* Props_Lexer.v: `lexer_keeps`, `lexer_highlights`, `lexer_errors`, `lexer_comment_refuted`, `lexer_verbatim_refuted`

chroma's engine is modelled from its documentation. Documents ending inside a comment or verbatim text are covered by lexer_keeps and lexer_errors only. Two places where the parser sees it differently are refuted: a comment after an escaped backslash, two closing braces in verbatim text.

### C73 From the source of a book to its pages (proved)

For every book (sections to any depth with titles, tags, splitting, omission from tables of contents; paragraphs, lists, code, tables, definitions and tables of contents; styled words, links, images, references and targets) in which every reference is to something there is exactly one of, and every document that the language says is its source, building prints exactly the page told from the book alone: headings with depth and numbers, escaped text, links to the addresses of what is referred to, nested tables of contents. With an output directory exactly the pages told from the book are in the files named by their main tags, the last one if several have the same name, and no other file changes. For all such books, sources, directories, environments with the base plugin, sufficient depth of evaluation and rendering. Code: booklitcmd/command.go, load/processor.go, stages/evaluate.go, stages/collect.go, baselit/plugin.go, render/html.go, render/writer.go, section.go, ast/booklit.peg.go.

Proof: Book.v: books, their syntax trees and their pages, as plain functions. BookEval.v, BookStore.v, BookSections.v: evaluating the tree lays the sections out in memory one after the other (big-step semantics, completeness for the fuel); BookCollect.v: collecting adds the anchors; BookPlaces.v: numbers, depths, addresses and entries by induction over the book; BookHtml.v: rendering; BookBuild.v, Props_Book.v: composed with the grammar theorem (C03) and the writer (C20).

* Props_Book.v: `book_prints`, `book_files`, `book_each_file`, `book_text`

Books without plugins of their own, styles, partials and lazy contents; titles and what references show contain no references or targets. Files can be opened, no search index, HTML. For those see the properties of the parts.

### C74 How a book is split into files does not show (proved)

A subsection written in a file of its own and named with include-section, at any depth and with names relative to the directory of the file naming it, gives the same pages as the subsection written in place: every way of splitting a book into files on a disk prints the page, and fills the output directory with the files, that are told from the book alone; two ways of splitting it give the same output. For all books as in C73, all ways to split them into files, disks, directories, depths. Code: baselit/plugin.go, load/processor.go, section.go, stages/evaluate.go.

Proof: BookLaid.v (specification): ways of splitting a book into files. BookSections.v: evaluation of include-section lays out the same sections (cache agrees with the files: CacheFree.v); Props_Files.v.

* Props_Files.v: `parts_print`, `parts_files`, `parts_same`

The books of C73, each file with one section, included files not including themselves. A file may be included several times (parsed once).

### C75 The search index of a book lists its tags (proved)

Building a book with an index leaves, next to the pages, one JSON file whose members are the tags and anchors of the book in byte order: each with the address at which the pages link to it, its title as text, the text of the section it is in (references without words read as the title of what they refer to), the depth of that section and the section's tag; of several with the same tag the last in the book is kept; whatever can be referred to is listed with the address of the reference. For all books as in C73 and C74, all ways of splitting them into files. Code: render/writer.go, booklitcmd/command.go, section.go, reference.go, paragraph.go, list.go.

Proof: BookText.v (specification): the documents of a book. BookIndex.v: String() of bodies and titles, depth, addresses; Props_Index.v.

* Props_Index.v: `book_index`, `book_index_exact`, `book_index_complete`

The documents are told from the book alone (BookText.v). book_index allows for texts that are not UTF-8, which JSON mends; book_index_exact is about books without any.

### C76 Books with broken references (proved)

With --allow-broken-references every book is built: a reference to a tag that nothing or several things have is a link to the anchor 'broken' of its own page, showing its words or else the text {broken reference: tag}, and reads as that text in the index. Without it, printing a page fails with the error of the first such reference on that page (unknown tag, or ambiguous with as many definitions as there are), and only then; building files writes the pages before the first page with such a reference, begins that page's file, and leaves all other files, the index among them, as they were. For all books as in C73 and C74, whatever their references are to. Code: reference.go, section.go, render/html.go, render/writer.go, booklitcmd/command.go.

Proof: Book.v (span_html, page_refs, pages_refs, missing, refused); BookHtml.v proves rendering with a predicate [gives] that covers both outcomes; BookBuild.v carries it to the build; Props_Broken.v.

* Props_Broken.v: `broken_print`, `broken_files`, `broken_index`, `sound_page_print`, `broken_page_refused`, `broken_files_refused`, `pages_refs_all`

How a broken reference is shown is in Book.v (span_html) and BookText.v (called); the errors are told by Book.refused, the references page by page by Book.pages_refs.

### C77 The template language of templates of books (proved)

A template file written as Go's documentation says - texts and actions between {{ and }}, trimming markers, pipelines of commands with fields, variables, functions, strings, numbers, constants and parentheses, if, with, range (with variables) and their else, template calls, definitions - is read as exactly what it says, and cannot be taken in two ways. Executing it gives a text exactly if it means that text by the rules of the documentation: which values are empty, what the dot and $ are where, the scopes of variables, how arguments and piped values are passed, that and/or stop early, ranges with indices, and which data another template is called with. For all template texts and trees, all data and sets of templates. Code: render/html.go, render/text.go, render/html, render/text.

Proof: Spec in TmplWritten.v (syntax, from characters) and TmplMeaning.v (a big-step relation); TmplReads.v proves the lexer and the parser without fuel and then against the syntax; TmplMeaningProofs.v both directions of execution; Props_TmplText.v.

* Props_TmplText.v: `template_text_reads`, `template_text_unambiguous`, `template_executes`, `engine_executes`

The language is the modelled part of it (Tmpl.v lists what is left out, and is taken as not parsing). Which fields and functions there are is a parameter of the rules; they are those of TmplExec.v. Go's checks of names at parse time are made at execution here.

### C78 Where values stand in HTML templates (proved)

In an HTML template every value is written for the place where it stands, on every way through the template: in the content of elements and in quoted attribute values it is read back as the value itself; at the beginning of an attribute that holds a URL it gives a URL that runs no script; after the ? or # of a URL it is one component that reads as the value; in a name it is a plain word or ZgotmplZ. A template with a value in a script, a style sheet, an event handler or a style attribute, with branches that end in different places, or that ends inside of a tag is not executed. For all templates written with quoted attribute values and without non-empty scripts and style sheets; all values. Code: render/html.go, render/html.

Proof: Spec in HtmlRead.v (reading text as HTML, kinds of attributes, places on all ways through a template); HtmlReadProofs.v against TmplEsc.v; Props_Places.v. Prompted by seeded bugs in attr_kind and join_ctx that no theorem noticed.

* Props_Places.v: `actions_placed`, `misplaced_refused`, `misplaced_not_executed`, `value_in_text`, `value_in_attribute`, `value_as_url`, `value_in_query`, `value_in_name`

How text reads as HTML is HtmlRead.v, written from the documentation of html/template; how written values are read back is the tokenizer of HtmlSpec.v and UrlSpec.unescape. Go allows values in scripts, style sheets and unquoted attribute values with escapers of their own, which are not modelled: here such templates are errors.

### C79 Template files (proved)

The template files of a directory that can be read and are written as they should be are all taken. A template of the engine is then the last body that a file (in order of names) has for its name and that is not only blanks, and otherwise what is bundled; a body of blanks replaces nothing. In one file a name has at most one body that is not blank, be it the file's own or a definition, or loading fails; line feeds at the end of a file are no part of it. A file that cannot be read makes loading fail. For all directories of template files; all bundled sets. Code: render/html.go, render/text.go.

Proof: Spec in TmplFiles.v (blank bodies, which body of a file and of a directory is taken); TmplFilesProofs.v against Tmpl.parse and Templates.add_files; Props_TmplFiles.v. Prompted by a seeded bug in empty_tree that no theorem noticed; the model now also has the error for two definitions in a file.

* Props_TmplFiles.v: `files_templates`, `files_determined`, `engine_files`, `files_refused`

What is taken is TmplFiles.v, over texts written as in TmplWritten.v; files with comments or other syntax that is not modelled are outside of it.

### C80 Parser (proved)

The text of a syntax error is 'no match found, expected: ' and a list of what stopped the parser at the position the error is reported at: everything a matcher of the grammar looked for there and did not find, and with a '!' everything that it found and that must not be there. The list is in order of bytes, has each text once, has the end of the file last and is never empty; 'a', 'a or b', 'a, b or c'. Nothing stopped the parser further on. A document that is not UTF-8 gets 'invalid encoding', and only documents that parse get no text. For all documents that do not parse. Code: ast/booklit.peg.go, ast/errors.go.

Proof: Expected.v is the interpreter of Peg.v with maxFailExpected and a log of all tries; ExpectedProofs.v: it runs as Peg.v, the list is what the log has at the furthest position, the log is what the grammar comes to (looks) and says the truth about the document; Props_Expected.v.

* Props_Expected.v: `expected_same_parse`, `syntax_error_text`, `matcher_texts`, `looks_truly`, `expected_missing`, `encoding_error_text`

The matchers a parser comes to are [looks] (ExpectedSpec.v), a relation over the expressions of the grammar and the outcomes of parsing with them (Peg.v).

### C81 Plugins (proved)

The functions of the plugins that come with booklit beside the base plugin (those of the documentation, the syntax function of the chroma plugin, the quote function of the hello example): which there are, and for all arguments that evaluate to something what content they stand for, when they fail and with what, and when they crash. Names of functions in highlighted code become links and arguments in braces are emphasized exactly where they stand; a definition is a target with its title, thumbnail and content; a godoc reference splits at its first dot, its stars are no part of the address. None of them changes a section. Found: a godoc reference without a dot, and a definition of something that is not a plain invocation, crash the program. For all sections whose plugins include these, all arguments, any highlighter. Code: docs/go/plugin.go, docs/hello/go/plugin.go, chroma/plugin.go.

Proof: Docs.v has the plugins as method tables of Evaluate.v; DocsSpec.v says what they give, with the matches of the regular expressions as a relation; DocsProofs.v: the methods come to what is said, and that is determined; Props_Docs.v takes it through the evaluator.

* Props_Docs.v: `docs_all`, `docs_determined`, `docs_end`, `docs_do`, `syntax_end`, `quote_end`, `godoc_crashes`, `docs_no_panic_refuted`

DocsSpec.v says what each function gives; the highlighter (lexers and formatters of the chroma library) and what fmt prints for a node that is no string are arbitrary functions.

### C82 Templates (proved)

What templates can ask of sections, contents, tags, definitions and what the functions of the engines give them, for any book and any values: the number, page, place, file, depth, neighbours, anchors and partials of a section, whether it contains another or is or has it as a child; the tag a reference leads to and what it displays; not, eq, ne, len; the addresses of tags; levels of headings; joined lines. Nothing else that is listed is given, and apart from the order of tags found no template is told two things. For all books in the form the loader makes, all values and arguments. Code: section.go, reference.go, tag.go, content.go, render/html.go, render/text.go.

Proof: MembersSpec.v says for each field, method and function what it gives, with parents, descendants and positions as relations on the tree; MembersProofs.v: the model's member and apply_func (the field and func of C77's template_executes) give exactly that; Props_Members.v.

* Props_Members.v: `members_told`, `members_answered`, `members_determined`, `functions_give`

MembersSpec.v lists what can be asked; strip_aux is specified by C24's theorems, positions, inlined sections and lists of tags are the relations of TreeSpec.v, QueryProofs.v and TagProofs.v. Values that are compared by pointer are not modelled (an error).

### C83 Books as plain text (proved)

For every book as in C73, in one file or several, built with a file name extension and the bundled text templates: either every content of a page is one there is a template for (text, insets, paragraphs, sections, tables of contents), and then the page is exactly its title, an empty line and the section with its number, title, text and the sections on the page; or the build fails, telling (when printing) the first template that is missing, after writing exactly the pages before. Found: the text of a section follows its title without a space or line end. For all books, all ways of laying them out in files. Code: render/text.go, render/text/*.tmpl, render/writer.go, booklitcmd/command.go.

Proof: BookPlain.v: the text of a book and the templates it lacks, by recursion on the book; BookPlainProofs.v: the text renderer gives it for the sections C73's proof shows a book is loaded as, page by page; Props_Plain.v.

* Props_Plain.v: `plain_prints`, `plain_files`, `plain_all_files`, `titles_apart_refuted`

BookPlain.v tells the text from the book alone. Books are those of C73 (no plugins of their own); the search index of text builds is not part of it.

### C84 A section of a book on its own, and books in the server (proved)

For every book as in C73, in one file or several: with --section-tag, the first section in the order of the text that has the tag or an anchor of that name is chosen, and an unknown tag is told as such. Printing shows exactly its page (HTML or text) with number, links and references as in the whole book; with --out exactly its page, if it has one, and those of the pages below are written, which are pages of the whole build; the search index is that of the whole book. A server without templates of its own, after any requests and changes of files, answers a request for NAME.html with the first section tagged NAME in the book as it is now, and with every page of a book by its file name if its tags differ. Found: building a section that is not a page of its own writes nothing and succeeds; the index of such a build is for pages that are not written. For all books, all ways of laying them out in files, all histories of requests. Code: booklitcmd/command.go, booklitcmd/server.go, section.go, render/writer.go.

Proof: BookChoose.v: the tags of a book with their sections, the pages from a section; BookChooseProofs.v: FindTag at the top gives them in the order of the text, and what is rendered and written; BookServe.v: the same for the server through C66 and C70; Props_Choose.v.

* Props_Choose.v: `section_prints`, `section_prints_text`, `section_files`, `section_pages`, `section_files_text`, `section_index`, `server_shows`, `server_pages`, `section_written_refuted`, `index_written_refuted`

BookChoose.v tells from the book alone which section has a tag and which pages are from there. Books are those of C73 (no plugins of their own); --section-path is C61's.

### C85 A section that is loaded below a book (proved)

For every book and every section as in C73, each in one file or several: --section-path shows the section exactly as it would be shown as the last section of the book (its number, header level, links, and references into the book and into itself), which is also what --section-tag shows of the book that has it there. With --out its page, if the book's sections have pages, and those of the sections below are written, and nothing of the book is; where a reference is to nothing or to several things the pages before it are there and the error says so. As text likewise. The search index is that of the book alone. Found: a section that the book already includes and that refers to itself cannot be built in this way (ambiguous reference); below a book that is not split nothing is written and the build succeeds; the search index lacks the page that is written. For all books, all sections, all ways of laying them out in files. Code: booklitcmd/command.go, load/processor.go, section.go, render/writer.go.

Proof: BookUnder.v: the book with one more section; BookUnderProofs.v: LoadFileIn puts the section beside the book in the heap, so its number comes from an index that is not found, its tags from walking up to the top and down its own tree; then as C84, with places, pages and text told for any root (BookPlaces.v, BookHtml.v, BookPlainProofs.v); Props_Under.v.

* Props_Under.v: `path_prints`, `path_prints_text`, `path_is_last`, `path_files`, `path_files_broken`, `path_files_text`, `path_index`, `path_twice_refuted`, `path_written_refuted`, `path_index_refuted`

BookUnder.v says where the section would be; the hypotheses about what it refers to are about that book with the section at its end. No plugins of the book's own.

### C86 Books on a single page (proved)

For every book as in C73, in one file or several, whose first file says \single-page: a build writes one file, which holds every section of the book, and no other; where the same files without \single-page are built as a book with pages, the sections have the same numbers, titles and header levels on the one page as they have on the many, every reference that led somewhere leads to the same thing, shown the same, at an anchor of that page. A section in the middle of a book that says so has everything below it on its page. As text likewise. Found: the additional single page for which the documentation recommends it cannot be had, since a chapter that is both on its own page and on the single page can not be referred to. For all books, all sections and files of it saying \split-sections or not. Code: baselit/plugin.go, section.go, render/writer.go.

Proof: Book.v's sections say whether those below have pages, are on the same page, or are there though they say \split-sections; BookLaid.v: which of these files mean, with what is above; BookSections.v: evaluation keeps track of whether something above prevents splitting (held, above in BookStore.v) and so gets there; BookSingle.v: the book on one page; Props_Single.v: it is in one file (induction over the files), compared section by section with the book with pages.

* Props_Single.v: `single_below`, `single_files`, `single_text`, `single_has_all`, `single_looks`, `single_refers`, `single_added`, `single_overrules`, `single_page_additional_refuted`

Books of C73 with \single-page and \split-sections directly after the title; BookSingle.v tells the book on one page from the book with pages. single_overrules supposes that no file includes the first one.

### C87 The pages of the documentation (proved)

With the templates in docs/html loaded over the bundled ones: they are all taken and escaped, and every other template stays the bundled one. Every section of a tree is given the page described (title, link to the front page, navigation bar, the section itself) unless some part of that cannot be rendered; the bar has an entry for every chapter, in order, each leading to that chapter, and marks exactly one of them, the one the page belongs to, or none on the front page. Sections have headings at their level, linked numbers that say their position, their body and, when they do not split, the sections below; a splash is only its body. The styles of the documentation surround their contents as described, and other contents are as without these templates: among them references, which link to the one section with the tag, and tables of contents, which list every section below with number and title. That sections know their first tag holds after any loads with any plugins. Found: the URL of an output frame is escaped twice. For all trees of sections, all contents, all pages. Code: docs/html/page.tmpl, docs/html/section.tmpl, docs/html/columns.tmpl, docs/html/definition.tmpl, docs/html/output-frame.tmpl, docs/html/splash.tmpl, render/html.go.

Proof: DocsTmpl.v: the sources of docs/html and the set they make with the bundled ones; DocsPages.v: what running each of them does, one level; SiteSpec.v: pages, navigation, sections as strings over how contents are rendered; SiteLoad.v: an invariant of evaluation (the first tag is among the tags); Props_Site.v.

* Props_Site.v: `site_templates`, `site_pages`, `site_sections`, `site_marks`, `site_splash`, `site_styles`, `site_columns_are`, `site_definition_is`, `site_plain`, `site_kept`, `site_references`, `site_toc`, `site_frames`, `site_loaded`, `site_frames_refuted`

The templates are those of docs/html, run by the template language of C77 and C78. sidebar.tmpl is only parsed and escaped: nothing uses it. Styles without a template, and those the bundled templates for text (string, raw-html) are used as, are not described.
