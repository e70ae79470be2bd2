#!/usr/bin/env python3
"""Regenerates /verif/properties.jsonl (one JSON object per line)."""
import json
P = []
def p(id, title, statement, quantifier, why, anchors):
    P.append(dict(id=id, title=title, statement=statement, quantifier=quantifier, why_tests_cant=why, anchors=anchors))

p("C01","Parsing always terminates",
  "ast.Parse / ast.ParseReader returns (a node or an error) for every byte string: no input makes the parser loop or recurse forever, and its recursion depth is bounded by a linear function of the input length.",
  "every finite byte string, valid UTF-8 or not",
  "The input space is infinite; PEG loops over nullable bodies or left recursion only show up on particular inputs.",
  ["ast/booklit.peg","ast/booklit.peg.go: parse, parseExpr, parseZeroOrMoreExpr, parseOneOrMoreExpr"])
p("C02","Parsed documents are well shaped",
  "Whenever a document parses, the result is a non-empty sequence of non-empty paragraphs of non-empty lines; every String node is free of CR and LF; every function name is a non-empty string over [a-z-]; and no semantic action panics on a type assertion.",
  "every byte string that parses",
  "Quantifies over all documents; the actions use unchecked type assertions on interface{} values whose shape depends on which alternatives matched.",
  ["ast/booklit.peg","ast/booklit.peg.go: callon*","ast/node.go"])
p("C03","Escaped text is preserved by the parser",
  "For every one-line text, escaping each backslash and brace with a backslash yields a document whose parse is one paragraph of one line consisting only of String nodes whose concatenation is exactly the text.",
  "every non-empty valid UTF-8 text without line breaks that does not start with a blank",
  "A round trip over all texts; tests sample a handful of punctuation.",
  ["ast/booklit.peg: String, Line, Paragraph"])
p("C04","Inline verbatim arguments are byte-exact",
  "\\f{{{text}}} parses to an invocation of f with one argument made of String nodes whose concatenation is exactly text, whatever Booklit syntax the text contains.",
  "every text without line breaks in which no closing triple brace occurs before its end, and every function name over [a-z-]+",
  "All texts, including ones full of braces and backslashes.",
  ["ast/booklit.peg: VerbatimArg, VerbatimLine, VerbatimString"])
p("C05","Block arguments strip exactly the first line's indentation",
  "In a verbatim block argument, the indentation of the first line is removed from every line and nothing else is changed: each line's content is the line minus that many leading blanks (or all its blanks if it has fewer).",
  "every list of lines (any length, any indentation, CR/LF-free text without closing braces)",
  "Holds for every number of lines and indentation; depends on hidden parser state (globalStore) that persists across lines and backtracking.",
  ["ast/booklit.peg: Indent, VerbatimBlock, VerbatimBlockLine, PreformattedBlock"])
p("C06","Comments nest and leave no trace",
  "Every well-nested comment, of any nesting depth and content, is consumed as a whole wherever a comment is allowed, and a document with such a comment between two words, or on its own between paragraphs, evaluates to the same words as the document without it.",
  "every well-nested comment body of any depth",
  "Unbounded nesting and contents.",
  ["ast/booklit.peg: Comment, Word, CommentSpacing"])
p("C07","Source locations of invocations are exact",
  "Every Invoke node's Location has an Offset at which the source has a backslash followed by the function name, Line equal to one plus the number of line feeds before it, and Col equal to one plus the number of characters since the last line feed.",
  "every parsed document and every Invoke node nested anywhere in it",
  "Positions must survive arbitrary backtracking.",
  ["ast/booklit.peg.go: read, restore, parseActionExpr, onInvoke1"])
p("C08","Line-ending style does not matter",
  "Converting every LF of a document to CRLF changes neither whether it parses nor the resulting tree, except for byte offsets.",
  "every document that contains no CR",
  "Every document and every position of line breaks, inside comments, arguments, verbatim blocks; tests try three documents.",
  ["ast/booklit.peg: LineBreak","tests/line_endings_test.go"])
p("C09","Rejected input is reported inside the file",
  "If parsing fails, the reported location lies within the file: its offset is at most the file size and its line at most one more than the number of line feeds; a document that is not valid UTF-8 is always rejected. A syntax error is reported far enough: every document with the same text up to the reported place and a few bytes more is rejected at that place.",
  "every byte string that does not parse",
  "All malformed inputs.",
  ["ast/booklit.peg.go: failAt, addErr, parse, read","ast/errors.go: UnpackError","load/processor.go: EvaluateFile"])
p("C10","Documents can be written for every syntax tree",
  "Printing any syntax tree in normal form (paragraphs, lines, text, escapes, nested invocations with line arguments) and parsing it back yields the same tree up to source locations.",
  "every normal-form tree of any size and nesting",
  "Unbounded trees; nesting of arguments exercises ordered choice and backtracking.",
  ["ast/booklit.peg","ast/node.go"])
p("C11","Loading yields a consistent section tree",
  "After any load, with any plugins that use the Section API, every child's Parent is the section listing it, no section is listed twice, and following Parent always ends at a section without parent (no cycles).",
  "every document, file system, plugin set and evaluation depth",
  "All documents and all plugin programs.",
  ["load/processor.go: EvaluateNode, EvaluateFile","baselit/plugin.go: Section, IncludeSection","section.go"])
p("C12","Section numbers are unique and describe the position",
  "Number() of a section is the dot-joined list of one-based positions on the path from the top section, empty only for the top, and two different sections of one tree never share a number.",
  "every consistent section tree of any width and depth",
  "Uniqueness must hold for every pair of sections, e.g. 1.11 vs 11.1.",
  ["section.go: Number"])
p("C13","Tag lookup is complete and position-independent",
  "FindTag(name) called on any section of a tree returns every tag named name defined anywhere in the tree, each exactly once; calling it from another section of the same tree returns the same tags up to order. SimilarTags does the same for its predicate.",
  "every consistent section tree, every pair of sections in it, every name",
  "The up-and-down search with an exclusion must not miss or duplicate any tag in any tree shape.",
  ["section.go: FindTag, SimilarTags, filterTags"])
p("C14","A reference resolves iff its tag is defined exactly once",
  "Reference.Tag returns the tag when exactly one tag of that name exists in the tree; an unknown-tag error when none exists (unless optional); and an ambiguity error listing every definition when several exist; with AllowBrokenReferences it never fails.",
  "every tree, reference position and tag multiplicity",
  "All trees and multiplicities.",
  ["reference.go: Tag, resolve, Display"])
p("C15","A resolved reference never changes its mind",
  "Once Reference.Tag has returned a real tag, every later call returns the same tag whatever is added to the tree in between; failures are not remembered.",
  "every history of calls interleaved with tree changes",
  "All histories.",
  ["reference.go: Tag, resolve"])
p("C16","Tree queries agree with the tree",
  "Contains is exactly the reflexive descendant relation, IsOrHasChild its one-step version, Top the unique parentless ancestor, Depth the distance to it, FilePath the path of the nearest ancestor that came from a file.",
  "every consistent tree, every pair of sections",
  "All trees.",
  ["section.go: Contains, IsOrHasChild, Top, Depth, FilePath"])
p("C17","Next-navigation visits every split page once, in order, and stops",
  "Starting at the top section and following Next enumerates exactly the sections reachable through split parents, in depth-first order, each once, and then returns nil; Prev is the previous sibling or else the parent.",
  "every consistent tree and every assignment of SplitSections",
  "All tree shapes; a wrong sibling rule loops or skips only on some shapes.",
  ["section.go: Next, NextSibling, Prev"])
p("C18","Every section is rendered on exactly one page",
  "Each section of a tree has exactly one page owner (itself or an ancestor), and the sections rendered inline by a page are exactly those it owns; so over all written pages every section appears exactly once.",
  "every consistent tree and every assignment of SplitSections",
  "All trees.",
  ["render/common.go: sectionPageOwner","render/html/section.tmpl","render/writer.go: WriteSection"])
p("C19","No dangling page links",
  "The page part of the URL of any tag of any section in the tree is the name of a file that WriteSection writes when given the top section.",
  "every consistent tree, every tag in it, every file extension",
  "All trees and all tags.",
  ["render/common.go: sectionURL","render/writer.go: WriteSection, writeSingleSection"])
p("C20","WriteSection writes exactly the pages",
  "WriteSection writes one file per section whose parent is absent or split, in depth-first order, named after its primary tag, and nothing else; when primary tags of pages are distinct no page overwrites another; at the first render error it stops.",
  "every consistent tree, every engine outcome",
  "All trees and failure points.",
  ["render/writer.go: WriteSection, writeSingleSection"])
p("C21","Link fragments exist on the linked page",
  "With the bundled HTML templates the fragment of the URL of a section tag, or of a target collected from a title or body outside partials, is the id of an anchor rendered on the page named by the URL.",
  "every loaded document and tag",
  "All documents, nesting of content and page splits.",
  ["render/common.go: sectionURL","render/html/section.tmpl","render/html/target.tmpl","stages/collect.go"])
p("C22","The search index covers exactly the tags of the tree",
  "The search index has one entry per tag name occurring in the tree, describing a tag of that name (the last in depth-first order when a name is repeated): its URL, title, depth and owning section's primary tag, and its own text or else its section's body text.",
  "every consistent tree",
  "All trees and duplicate patterns.",
  ["render/writer.go: loadTags, WriteSearchIndex"])
p("C23","Default tags are safe file names",
  "The default tag of any title consists only of lower-case ASCII letters, digits, underscore and hyphen, so the page file name derived from it contains no path separator; letters and digits of the title all survive, lower-cased and in order.",
  "every title text, including invalid UTF-8",
  "All strings.",
  ["section.go: defaultTag, SetTitle"])
p("C24","StripAux removes auxiliary content and nothing else",
  "StripAux leaves no Aux wrapper in the result, removes exactly the Aux elements of sequences, paragraphs, lists, tables, keeps all other text in order, is idempotent, and does not touch content without Aux.",
  "every content value of any shape",
  "Unbounded nesting of 15 content kinds.",
  ["aux_.go"])
p("C25","Append concatenates content",
  "Appending one content to another yields a sequence whose elements are those of the first followed by the second, and appending nil is the identity; folding it over a list yields the flat sequence of the list.",
  "every pair/list of contents",
  "All lists; the variadic form is only ever exercised with one element by tests.",
  ["append.go"])
p("C26","IsFlow is decided by block leaves",
  "A content is flow exactly if no block-level content (paragraph, list, table, definitions, preformatted, table of contents, section, block-styled or block-lazy) occurs at a sequence/style/link/aux position of it.",
  "every content value",
  "Unbounded nesting.",
  ["sequence.go","styled.go","lazy.go","paragraph.go","link.go","aux_.go"])
p("C27","Evaluation keeps the paragraph structure",
  "Evaluating a document whose invocations are free of side effects yields, in order, one paragraph per source paragraph with one line per source line that produced content; a paragraph consisting of a single block is replaced by the block; paragraphs producing nothing vanish.",
  "every syntax tree",
  "All documents.",
  ["stages/evaluate.go: VisitParagraph, VisitPreformatted, VisitSequence, VisitString"])
p("C28","Functions dispatch to the first plugin that defines them",
  "Invoking a function calls the method of the first plugin, in registration order, that has it; if none does the load fails with an undefined-function error carrying the name and location, and no plugin code runs.",
  "every section plugin list, every function name",
  "All plugin lists.",
  ["stages/evaluate.go: VisitInvoke","ast/node.go: Method"])
p("C29","Arity is enforced before evaluation of arguments",
  "A call with the wrong number of arguments (not equal, or fewer than the fixed ones for variadic methods) fails without evaluating any argument or running the method; otherwise the method receives exactly the given arguments in order.",
  "every method signature and argument list",
  "All arities.",
  ["stages/evaluate.go: VisitInvoke, convert"])
p("C30","Plugin errors surface unchanged or wrapped once",
  "An error returned by a function aborts the load: an error that is already pretty is returned as is, any other is wrapped with the function name and location; content following it is not evaluated.",
  "every document position and every error",
  "All positions and nestings.",
  ["stages/evaluate.go: VisitInvoke","errors.go"])
p("C31","A section's title is set at most once",
  "After a successful load no section has had a second non-empty title accepted; a second \\title in the same section fails the load with a title-twice error pointing at both.",
  "every document",
  "All documents and nestings.",
  ["baselit/plugin.go: Title","section.go: SetTitle"])
p("C32","single-page overrules split-sections below it",
  "A section evaluated while it or an ancestor is marked single-page never gets SplitSections; and every section that called split-sections has ResetDepth so header depths are kept.",
  "every document and plugin program using the section API",
  "All nestings and orders of calls.",
  ["baselit/plugin.go: SinglePage, SplitSections","section.go: SplitSectionsPrevented"])
p("C33","Inline sections inherit plugins, included ones do not",
  "An inline section starts with exactly the plugins its parent has at that moment; an included file starts with only the base plugin; plugins used by a child never leak to its parent or siblings.",
  "every document",
  "All nestings.",
  ["baselit/plugin.go: Section, IncludeSection, UsePlugin","load/processor.go: evaluateSection"])
p("C34","Includes are relative to the including file",
  "The file loaded by \\include-section{p} is p resolved against the directory of the file containing the call, even inside nested inline sections.",
  "every nesting of inline sections and path",
  "All nestings.",
  ["baselit/plugin.go: IncludeSection","section.go: FilePath"])
p("C35","Loading a document does not crash",
  "Loading any document with only the base plugin returns a section or an error; it does not panic.",
  "every document",
  "All documents; reflection calls and nil contents panic only for specific shapes.",
  ["stages/evaluate.go: convert, VisitInvoke","aux_.go","baselit/plugin.go"])
p("C36","The parse cache never serves stale content",
  "Evaluating a file uses the syntax tree of the file's current content, whatever earlier loads and file changes happened.",
  "every history of file writes and loads, including concurrent ones",
  "All histories and modification times.",
  ["load/processor.go: EvaluateFile"])
p("C37","Template reloading reflects the template directory",
  "After LoadTemplates returns without error, the engine's templates are the bundled ones overridden by the files currently in the directory.",
  "every history of template directory changes and LoadTemplates calls",
  "All histories incl. failed loads and deletions.",
  ["render/html.go: LoadTemplates","render/text.go: LoadTemplates"])
p("C38","Lazy content is computed exactly once",
  "However many goroutines force a Lazy concurrently, its function runs at most once, and every Force that returns returns that run's result.",
  "every number of goroutines and every interleaving",
  "All interleavings.",
  ["lazy.go"])
p("C39","The server serves every page under its URL",
  "Requesting the path of the URL of any page of the book serves the section owning that page when tags are unique; '/' serves the section tagged index; a path that names no tag is delegated to the file server.",
  "every tree and request path",
  "All trees and paths.",
  ["booklitcmd/server.go: ServeHTTP, loadRequestedSection"])
p("C40","Error annotation never crashes and splits the line faithfully",
  "Rendering the source snippet of any error location does not panic, and prefix, annotated part and suffix concatenate to the source line.",
  "every error location and file content",
  "All locations including line breaks and end of file, multi-byte characters.",
  ["errors.go: AnnotatedHTML, AnnotateLocation, lineInQuestion"])
p("C41","Anchor queries agree with the tags",
  "AnchorTags returns exactly the section's tags with an anchor, in order; HasAnchors is true iff the section or one of its transitively inlined descendants has an anchored tag.",
  "every consistent tree",
  "All trees.",
  ["section.go: HasAnchors, AnchorTags"])
p("C42","Tables of contents list every visible section once",
  "The table of contents of a section lists exactly its descendants that have no proper ancestor (up to and including the section) omitting its children, in depth-first order, each with its number and URL.",
  "every consistent tree and assignment of the omit flag",
  "All trees.",
  ["render/html/toc.tmpl","render/text/toc.tmpl","toc.go"])
p("C43","Text rendering preserves text",
  "With the bundled text templates, rendering strings, sequences, paragraphs and preformatted content emits their text, lines joined by one space and one newline respectively; content without a bundled template is an error, never silently dropped.",
  "every content value",
  "All contents.",
  ["render/text.go","render/text/*.tmpl"])
p("C44","Document text cannot inject HTML",
  "With the bundled HTML templates every character of document text appears escaped: the rendered markup is balanced and its tags come only from the templates.",
  "every content built by the base plugin",
  "All contents and all strings.",
  ["render/html.go","render/html/*.tmpl"])
p("C45","Partials behave like a map",
  "Partial(name) returns the content most recently set under name, nil if never set, and setting one name never affects another.",
  "every history of SetPartial calls",
  "All histories.",
  ["section.go: SetPartial, Partial"])
p("C46","Tables and definitions are validated",
  "\\table succeeds iff every row is a list and then has exactly those rows; \\definitions succeeds iff every item is a two-element list and then pairs them in order.",
  "every list of arguments",
  "All lists.",
  ["baselit/plugin.go: Table, TableRow, Definitions, Definition"])
p("C47","Slow-invoke warnings are consistent",
  "For every invocation the slow warning is logged at most once, exactly one completion line is logged, and it says slow exactly if the timer fired before completion.",
  "every interleaving of the timer goroutine and the invocation",
  "All interleavings.",
  ["stages/evaluate.go: VisitInvoke"])
p("C48","Header depths are valid HTML and follow resets",
  "headerDepth is between 1 and 6 and equals one plus the number of ancestors up to the nearest depth reset, capped at 6.",
  "every consistent tree",
  "All trees and depths.",
  ["render/html.go: headerDepth","section.go: PageDepth"])
p("C49","Evaluated text equals source text",
  "The text (String) of the evaluated body of a document without invocations is the concatenation of its String nodes, with a space between lines and a blank line after each paragraph.",
  "every invocation-free syntax tree",
  "All trees.",
  ["stages/evaluate.go","string.go","sequence.go","paragraph.go","preformatted.go"])
p("C50","Collection finds every target once",
  "After loading, a section's tags are its title tags followed by one anchored tag per target occurring in its title, body and partials outside the text of references and other targets, in order (partials in any order), and targets inside a child section belong to that child only.",
  "every document/section tree and every map iteration order",
  "All contents and the runtime's random map iteration order.",
  ["stages/collect.go"])
p("C51","References and titles record where they were written",
  "The location recorded for a reference, target or title is that of its own invocation.",
  "every document",
  "Depends on nested invocations in arguments.",
  ["stages/evaluate.go: VisitInvoke (InvokeLocation)","baselit/plugin.go: Reference, Target, Title"])
p("C52","Syntax-highlight transformers preserve the text",
  "Transformer.TransformAll splits a string into the unmatched pieces in order and the transformed matches, losing and duplicating nothing; SyntaxTransform applies this only to strings.",
  "every string and every set of regexp matches",
  "All strings.",
  ["chroma/plugin.go: TransformAll, SyntaxTransform"])
p("C53","Function names map to method names predictably",
  "The method name of a function is its hyphen-separated words with the first letter upper-cased; functions whose words agree call the same method, and names with different words call different methods.",
  "every function name the parser can produce",
  "All names.",
  ["ast/node.go: Method"])
p("C54","Plugin registration is last-wins",
  "LookupPlugin(name) finds the factory most recently registered under that name and fails exactly when none was.",
  "every history of registrations",
  "All histories.",
  ["plugin.go"])
p("C55","Loading terminates",
  "Loading a document terminates whatever files include one another.",
  "every file system",
  "Include graphs are unbounded; only cyclic ones misbehave.",
  ["baselit/plugin.go: IncludeSection","load/processor.go: EvaluateFile"])
p("C56","Rendering text of titles terminates",
  "String() of any loaded content terminates.",
  "every document",
  "Only self-referential titles misbehave.",
  ["reference.go: String","section.go: SetTitle"])
p("C57","References link to their tag and show the right text",
  "In HTML a reference is a link to the page and place of the one tag with its name, around its own content or else the tag's title; a missing tag gives the content of an optional reference and an error otherwise; several tags are an error; with broken references allowed the errors become links to #broken.",
  "every tree, reference and content",
  "All trees, positions and combinations of options.",
  ["reference.go","render/html/reference.tmpl","render/common.go: sectionURL"])
p("C58","String() says what the content says",
  "String() of a content is determined by its parts: sequences concatenate, paragraphs join with spaces and end with a blank line, list items are numbered from 1 and indented, tables and definitions are written row by row, references say their content, their tag's title or what is wrong.",
  "every content and tree",
  "Unbounded nesting of 15 content kinds; the methods are only tested through rendering.",
  ["string.go","sequence.go","paragraph.go","list.go","table.go","definitions.go","reference.go: String","section.go: String"])
p("C59","The search index file is readable JSON",
  "The file written by WriteSearchIndex is one line of JSON: an object with exactly one member per tag name of the book, in byte order of the names, whose fields read back as the entry's location, title, text, depth and section tag; bytes that are not UTF-8 are replaced by U+FFFD; it contains no raw <, > or &.",
  "every book, every text in it",
  "All texts: quotes, control characters, invalid UTF-8, U+2028; tests use plain ASCII.",
  ["render/writer.go: WriteSearchIndex"])
p("C60","Links between pages lead somewhere",
  "In a built book every href is either a link the author wrote, with its URL percent-encoded, or leads to the file of a page of the book and, if it names a place, to an anchor that page contains.",
  "every document, every page of it",
  "All combinations of sections, splits, titles, targets, references and tables of contents; tests look at single templates.",
  ["render/html/*.tmpl","render/common.go: sectionURL","render/writer.go"])
p("C61","A build produces the site",
  "A successful build writes exactly the pages of the chosen section (and the index of the book on request) and nothing else, or prints the page when there is no destination; every page of a whole book is well-formed and its links lead to files that were written; --section-tag fails exactly for tags the book does not have; before everything is loaded nothing is written.",
  "every set of files (as bytes), option, destination directory",
  "End to end over all books and options; the repository has no test of the command at all.",
  ["booklitcmd/command.go: Build","load/processor.go","render/writer.go"])
p("C62","Error reports show the place of the error",
  "The printed report of an error that knows its place begins with file and line and what is wrong, followed by the source line with a row of carets below exactly the invocation; similar tags and other definitions are all listed; an error within an error follows with every line indented and none lost.",
  "every error, nesting depth, document and position, including characters of several bytes",
  "All errors, documents and nestings; the tests only check that some error page is shown.",
  ["errors.go: PrettyPrint, Annotate, AnnotateLocation","booklitcmd/main.go"])
p("C63","Error pages are complete and harmless",
  "The page shown for an error is well-formed HTML made of the template's elements whose text is the explanation of the error with its source line, the invocation marked; nothing in names, messages or source becomes markup; the page is always complete.",
  "every error and file content",
  "All errors and all hostile strings.",
  ["errors.go: PrettyHTML, AnnotatedHTML, ErrorResponse","errhtml/*.tmpl"])
p("C64","Errors tell the place they arose at",
  "An error of loading or rendering a book names the file and position of the invocation that caused it, in whichever included file and however deeply nested, and at that position the file has that very function name; references that do not resolve name the reference and every definition of the tag; the printed report shows that line with the invocation underlined.",
  "every disk of files, document, nesting of sections and includes, sequence of loads, and order of map iteration",
  "All documents and all ways to fail; the tests contain a handful of errors.",
  ["stages/evaluate.go","baselit/plugin.go","load/processor.go","reference.go","errors.go","booklitcmd/command.go"])
p("C65","Builds are reproducible",
  "Go visits the entries of a map in an order that may differ from run to run. Whatever that order, building a book ends the same way, and the same bytes are written to the same pages; failures are the same up to the order in which they list suggestions and definitions. If no section registers a name twice, the search index is the same as well; otherwise it may differ.",
  "every document, plugin, engine, set of options (with --section-path: plugins that do not look at the order of tags), and pair of orders of map iteration",
  "All pairs of orders; tests see the order of one run.",
  ["stages/collect.go","section.go","reference.go","render/html.go","render/text.go","render/writer.go","booklitcmd/command.go"])
p("C66","The bundled templates do what is said of them",
  "The templates that come with both engines parse and can be escaped, so that starting does not panic. Executing them, by the rules of Go's template language and of its HTML escaping, gives for each content and each page the bytes that the model of rendering gives, fails when that fails, with the same error of a reference, and goes on for ever when that does.",
  "every tree of sections, content, and page; both engines; every extension of text pages",
  "All documents against the text of the templates; tests see some examples, mostly with templates of their own.",
  ["render/html.go","render/text.go","render/html/*.tmpl","render/text/*.tmpl","render/bindata.go"])
p("C67","Documents cannot write markup, whatever the templates",
  "With the bundled templates, and with any templates added to them that do not use rawHTML, an HTML page consists of text written in the templates, of text without any of < > and quotes, and of the text of those contents that have the style raw-html. Where a template inserts other content with rawHTML this does not hold.",
  "every document, every set of templates of which only raw-html.tmpl uses rawHTML, every page",
  "All templates and documents; a test shows single strings escaped.",
  ["render/html.go","render/html/raw-html.tmpl"])
p("C68","A template matters only where it is used",
  "Adding or replacing templates changes only pages of which rendering needs one of these, and those of a style for which a page template is among them.",
  "every document, every two sets of templates, both engines",
  "Needs the whole of rendering, for all documents.",
  ["render/html.go","render/text.go"])
p("C69","The command's exit status tells whether it did what was asked",
  "The command exits with 0 only when all pages asked for have been written or printed, with the templates given and the bundled ones otherwise. When anything fails (templates, loading, an unknown tag, rendering, writing, compiling or starting the program with the plugins) it exits with 1 after a message ending in a line feed, and what fails before the first page leaves the destination alone. With --plugin it does what the program with these plugins compiled in does without the option, with the same status; that program imports exactly booklitcmd and the plugins, if their paths contain no quotation mark, backslash or line feed.",
  "every command, every plugin set, every directory of templates, every disk",
  "Needs every way in which a run can fail, and arbitrary templates and plugins.",
  ["booklitcmd/main.go","booklitcmd/command.go"])
p("C70","The server shows what is on disk now, as a build would write it",
  "A reply of the server depends on the files, the templates and the path of the request only, not on earlier requests, as long as a file or template that has changed has a later time than before (and, for templates, none is deleted and a failed load is followed by a change). For a page of the book it is byte for byte the file that a build would write at that moment with the same options.",
  "every sequence of requests with such changes in between, every book, plugins and templates",
  "Needs the parse cache and the template cache along arbitrary histories, and equality of two whole pipelines.",
  ["booklitcmd/server.go","load/processor.go","render/html.go"])
p("C71","Each function of the base plugin does what it is for",
  "Every function of the base plugin other than \\section and \\include-section, called with any arguments: the content it stands for (style, link, image, list, table, definitions, reference, target, table of contents, aux) is made of its arguments as given, or exactly the fields of its section it is about are set (title with its tags, style, partial, plugin, page splitting), nothing else changing; or it gives the documented error.",
  "all arguments, sections and states, with any other plugins in use",
  "A table of some thirty functions against the evaluator, each for every number and type of arguments it accepts.",
  ["baselit/plugin.go","section.go","stages/evaluate.go"])
p("C72","Booklit documents are highlighted as what they are",
  "The lexer for Booklit documents gives tokens for every text that together are the text, and none is empty. In a document functions are keywords, braces built-in names, verbatim text and comments (which nest) are of their types with their delimiters, and all else is text. Only single backslashes that no name and nothing to escape follows, and in verbatim text braces that another or nothing follows, are marked as errors.",
  "all texts; all documents made of plain text, functions, escapes, braces, verbatim text and nested comments",
  "A table of regular expressions run by a stack machine, against a grammar of documents with the type of every character; comments nest to any depth.",
  ["chroma/booklit_lexer.go"])
p("C73","From the source of a book to its pages",
  "For every book (sections to any depth with titles, tags, splitting, omission from tables of contents; paragraphs, lists, code, tables, definitions and tables of contents; styled words, links, images, references and targets) in which every reference is to something there is exactly one of, and every document that the language says is its source, building prints exactly the page told from the book alone: headings with depth and numbers, escaped text, links to the addresses of what is referred to, nested tables of contents. With an output directory exactly the pages told from the book are in the files named by their main tags, the last one if several have the same name, and no other file changes.",
  "all such books, sources, directories, environments with the base plugin, sufficient depth of evaluation and rendering",
  "Composition of everything: parsing, evaluating, collecting, numbering, resolving, rendering, writing, against a description of the pages that knows no sections in memory, pointers or passes.",
  ["booklitcmd/command.go","load/processor.go","stages/evaluate.go","stages/collect.go","baselit/plugin.go","render/html.go","render/writer.go","section.go","ast/booklit.peg.go"])
p("C74","How a book is split into files does not show",
  "A subsection written in a file of its own and named with include-section, at any depth and with names relative to the directory of the file naming it, gives the same pages as the subsection written in place: every way of splitting a book into files on a disk prints the page, and fills the output directory with the files, that are told from the book alone; two ways of splitting it give the same output.",
  "all books as in C73, all ways to split them into files, disks, directories, depths",
  "Include-section is how large books are written; a wrong base directory, a section attached at the wrong place, lost plugins or a stale parse would change pages.",
  ["baselit/plugin.go","load/processor.go","section.go","stages/evaluate.go"])
p("C75","The search index of a book lists its tags",
  "Building a book with an index leaves, next to the pages, one JSON file whose members are the tags and anchors of the book in byte order: each with the address at which the pages link to it, its title as text, the text of the section it is in (references without words read as the title of what they refer to), the depth of that section and the section's tag; of several with the same tag the last in the book is kept; whatever can be referred to is listed with the address of the reference.",
  "all books as in C73 and C74, all ways of splitting them into files",
  "The index drives the search box; a wrong address, depth or text sends readers elsewhere.",
  ["render/writer.go","booklitcmd/command.go","section.go","reference.go","paragraph.go","list.go"])
p("C76","Books with broken references",
  "With --allow-broken-references every book is built: a reference to a tag that nothing or several things have is a link to the anchor 'broken' of its own page, showing its words or else the text {broken reference: tag}, and reads as that text in the index. Without it, printing a page fails with the error of the first such reference on that page (unknown tag, or ambiguous with as many definitions as there are), and only then; building files writes the pages before the first page with such a reference, begins that page's file, and leaves all other files, the index among them, as they were.",
  "all books as in C73 and C74, whatever their references are to",
  "The flag is the development mode of a site; without it the error must name the right reference and not leave pages of a half-built site behind silently.",
  ["reference.go","section.go","render/html.go","render/writer.go","booklitcmd/command.go"])
p("C77","The template language of templates of books",
  "A template file written as Go's documentation says - texts and actions between {{ and }}, trimming markers, pipelines of commands with fields, variables, functions, strings, numbers, constants and parentheses, if, with, range (with variables) and their else, template calls, definitions - is read as exactly what it says, and cannot be taken in two ways. Executing it gives a text exactly if it means that text by the rules of the documentation: which values are empty, what the dot and $ are where, the scopes of variables, how arguments and piped values are passed, that and/or stop early, ranges with indices, and which data another template is called with.",
  "all template texts and trees, all data and sets of templates",
  "Books bring their own templates, so the language itself and not only the bundled templates must be right.",
  ["render/html.go","render/text.go","render/html","render/text"])
p("C78","Where values stand in HTML templates",
  "In an HTML template every value is written for the place where it stands, on every way through the template: in the content of elements and in quoted attribute values it is read back as the value itself; at the beginning of an attribute that holds a URL it gives a URL that runs no script; after the ? or # of a URL it is one component that reads as the value; in a name it is a plain word or ZgotmplZ. A template with a value in a script, a style sheet, an event handler or a style attribute, with branches that end in different places, or that ends inside of a tag is not executed.",
  "all templates written with quoted attribute values and without non-empty scripts and style sheets; all values",
  "Templates of books insert text by authors and from files into HTML; what is inserted must not become markup or script, whatever the template is.",
  ["render/html.go","render/html"])
p("C79","Template files",
  "The template files of a directory that can be read and are written as they should be are all taken. A template of the engine is then the last body that a file (in order of names) has for its name and that is not only blanks, and otherwise what is bundled; a body of blanks replaces nothing. In one file a name has at most one body that is not blank, be it the file's own or a definition, or loading fails; line feeds at the end of a file are no part of it. A file that cannot be read makes loading fail.",
  "all directories of template files; all bundled sets",
  "A book replaces templates by files; which one is executed for an element must be clear from the files.",
  ["render/html.go","render/text.go"])
p("C80","Parser",
  "The text of a syntax error is 'no match found, expected: ' and a list of what stopped the parser at the position the error is reported at: everything a matcher of the grammar looked for there and did not find, and with a '!' everything that it found and that must not be there. The list is in order of bytes, has each text once, has the end of the file last and is never empty; 'a', 'a or b', 'a, b or c'. Nothing stopped the parser further on. A document that is not UTF-8 gets 'invalid encoding', and only documents that parse get no text.",
  "all documents that do not parse",
  "The message is what an author has to go on when a document does not parse.",
  ["ast/booklit.peg.go","ast/errors.go"])
p("C81","Plugins",
  "The functions of the plugins that come with booklit beside the base plugin (those of the documentation, the syntax function of the chroma plugin, the quote function of the hello example): which there are, and for all arguments that evaluate to something what content they stand for, when they fail and with what, and when they crash. Names of functions in highlighted code become links and arguments in braces are emphasized exactly where they stand; a definition is a target with its title, thumbnail and content; a godoc reference splits at its first dot, its stars are no part of the address. None of them changes a section. Found: a godoc reference without a dot, and a definition of something that is not a plain invocation, crash the program.",
  "all sections whose plugins include these, all arguments, any highlighter",
  "The plugins are what the documentation of booklit is written with and the examples that authors of plugins start from.",
  ["docs/go/plugin.go","docs/hello/go/plugin.go","chroma/plugin.go"])
p("C82","Templates",
  "What templates can ask of sections, contents, tags, definitions and what the functions of the engines give them, for any book and any values: the number, page, place, file, depth, neighbours, anchors and partials of a section, whether it contains another or is or has it as a child; the tag a reference leads to and what it displays; not, eq, ne, len; the addresses of tags; levels of headings; joined lines. Nothing else that is listed is given, and apart from the order of tags found no template is told two things.",
  "all books in the form the loader makes, all values and arguments",
  "Users write templates against these; one that is told the wrong parent, number or address writes wrong pages.",
  ["section.go","reference.go","tag.go","content.go","render/html.go","render/text.go"])
p("C83","Books as plain text",
  "For every book as in C73, in one file or several, built with a file name extension and the bundled text templates: either every content of a page is one there is a template for (text, insets, paragraphs, sections, tables of contents), and then the page is exactly its title, an empty line and the section with its number, title, text and the sections on the page; or the build fails, telling (when printing) the first template that is missing, after writing exactly the pages before. Found: the text of a section follows its title without a space or line end.",
  "all books, all ways of laying them out in files",
  "Text output is made for terminals and search; a user must be able to know which books it works for and what comes out.",
  ["render/text.go","render/text/*.tmpl","render/writer.go","booklitcmd/command.go"])
p("C84","A section of a book on its own, and books in the server",
  "For every book as in C73, in one file or several: with --section-tag, the first section in the order of the text that has the tag or an anchor of that name is chosen, and an unknown tag is told as such. Printing shows exactly its page (HTML or text) with number, links and references as in the whole book; with --out exactly its page, if it has one, and those of the pages below are written, which are pages of the whole build; the search index is that of the whole book. A server without templates of its own, after any requests and changes of files, answers a request for NAME.html with the first section tagged NAME in the book as it is now, and with every page of a book by its file name if its tags differ. Found: building a section that is not a page of its own writes nothing and succeeds; the index of such a build is for pages that are not written.",
  "all books, all ways of laying them out in files, all histories of requests",
  "Partial builds and the server must agree with the whole build, or what an author sees while writing is not what is published.",
  ["booklitcmd/command.go","booklitcmd/server.go","section.go","render/writer.go"])
p("C85","A section that is loaded below a book",
  "For every book and every section as in C73, each in one file or several: --section-path shows the section exactly as it would be shown as the last section of the book (its number, header level, links, and references into the book and into itself), which is also what --section-tag shows of the book that has it there. With --out its page, if the book's sections have pages, and those of the sections below are written, and nothing of the book is; where a reference is to nothing or to several things the pages before it are there and the error says so. As text likewise. The search index is that of the book alone. Found: a section that the book already includes and that refers to itself cannot be built in this way (ambiguous reference); below a book that is not split nothing is written and the build succeeds; the search index lacks the page that is written.",
  "all books, all sections, all ways of laying them out in files",
  "This option is for looking at one file without the cost of the whole; what it shows has to be what the book will show.",
  ["booklitcmd/command.go","load/processor.go","section.go","render/writer.go"])
p("C86","Books on a single page",
  "For every book as in C73, in one file or several, whose first file says \\single-page: a build writes one file, which holds every section of the book, and no other; where the same files without \\single-page are built as a book with pages, the sections have the same numbers, titles and header levels on the one page as they have on the many, every reference that led somewhere leads to the same thing, shown the same, at an anchor of that page. A section in the middle of a book that says so has everything below it on its page. As text likewise. Found: the additional single page for which the documentation recommends it cannot be had, since a chapter that is both on its own page and on the single page can not be referred to.",
  "all books, all sections and files of it saying \\split-sections or not",
  "One marker at the top changes where everything is; nothing must be lost or renumbered by it.",
  ["baselit/plugin.go","section.go","render/writer.go"])
p("C87","The pages of the documentation",
  "With the templates in docs/html loaded over the bundled ones: they are all taken and escaped, and every other template stays the bundled one. Every section of a tree is given the page described (title, link to the front page, navigation bar, the section itself) unless some part of that cannot be rendered; the bar has an entry for every chapter, in order, each leading to that chapter, and marks exactly one of them, the one the page belongs to, or none on the front page. Sections have headings at their level, linked numbers that say their position, their body and, when they do not split, the sections below; a splash is only its body. The styles of the documentation surround their contents as described, and other contents are as without these templates: among them references, which link to the one section with the tag, and tables of contents, which list every section below with number and title. That sections know their first tag holds after any loads with any plugins. Found: the URL of an output frame is escaped twice.",
  "all trees of sections, all contents, all pages",
  "This is the one site built with templates of its own, and shows how they work together with the program.",
  ["docs/html/page.tmpl","docs/html/section.tmpl","docs/html/columns.tmpl","docs/html/definition.tmpl","docs/html/output-frame.tmpl","docs/html/splash.tmpl","render/html.go"])
with open('/verif/properties.jsonl','w') as f:
    for x in P: f.write(json.dumps(x, ensure_ascii=False)+"\n")
print(len(P))
