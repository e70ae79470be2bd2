{"id": "C01", "title": "Parsing always terminates", "statement": "ast.Parse / ast.ParseReader returns (a node or an error) for every byte string: no input makes the parser loop or recurse forever, and its recursion depth is bounded by a linear function of the input length.", "quantifier": "every finite byte string, valid UTF-8 or not", "why_tests_cant": "The input space is infinite; PEG loops over nullable bodies or left recursion only show up on particular inputs.", "anchors": ["ast/booklit.peg", "ast/booklit.peg.go: parse, parseExpr, parseZeroOrMoreExpr, parseOneOrMoreExpr"]}
{"id": "C02", "title": "Parsed documents are well shaped", "statement": "Whenever a document parses, the result is a non-empty sequence of non-empty paragraphs of non-empty lines; every String node is free of CR and LF; every function name is a non-empty string over [a-z-]; and no semantic action panics on a type assertion.", "quantifier": "every byte string that parses", "why_tests_cant": "Quantifies over all documents; the actions use unchecked type assertions on interface{} values whose shape depends on which alternatives matched.", "anchors": ["ast/booklit.peg", "ast/booklit.peg.go: callon*", "ast/node.go"]}
{"id": "C03", "title": "Escaped text is preserved by the parser", "statement": "For every one-line text, escaping each backslash and brace with a backslash yields a document whose parse is one paragraph of one line consisting only of String nodes whose concatenation is exactly the text.", "quantifier": "every non-empty valid UTF-8 text without line breaks that does not start with a blank", "why_tests_cant": "A round trip over all texts; tests sample a handful of punctuation.", "anchors": ["ast/booklit.peg: String, Line, Paragraph"]}
{"id": "C04", "title": "Inline verbatim arguments are byte-exact", "statement": "\\f{{{text}}} parses to an invocation of f with one argument made of String nodes whose concatenation is exactly text, whatever Booklit syntax the text contains.", "quantifier": "every text without line breaks in which no closing triple brace occurs before its end, and every function name over [a-z-]+", "why_tests_cant": "All texts, including ones full of braces and backslashes.", "anchors": ["ast/booklit.peg: VerbatimArg, VerbatimLine, VerbatimString"]}
{"id": "C05", "title": "Block arguments strip exactly the first line's indentation", "statement": "In a verbatim block argument, the indentation of the first line is removed from every line and nothing else is changed: each line's content is the line minus that many leading blanks (or all its blanks if it has fewer).", "quantifier": "every list of lines (any length, any indentation, CR/LF-free text without closing braces)", "why_tests_cant": "Holds for every number of lines and indentation; depends on hidden parser state (globalStore) that persists across lines and backtracking.", "anchors": ["ast/booklit.peg: Indent, VerbatimBlock, VerbatimBlockLine, PreformattedBlock"]}
{"id": "C06", "title": "Comments nest and leave no trace", "statement": "Every well-nested comment, of any nesting depth and content, is consumed as a whole wherever a comment is allowed, and a document with such a comment between two words, or on its own between paragraphs, evaluates to the same words as the document without it.", "quantifier": "every well-nested comment body of any depth", "why_tests_cant": "Unbounded nesting and contents.", "anchors": ["ast/booklit.peg: Comment, Word, CommentSpacing"]}
{"id": "C07", "title": "Source locations of invocations are exact", "statement": "Every Invoke node's Location has an Offset at which the source has a backslash followed by the function name, Line equal to one plus the number of line feeds before it, and Col equal to one plus the number of characters since the last line feed.", "quantifier": "every parsed document and every Invoke node nested anywhere in it", "why_tests_cant": "Positions must survive arbitrary backtracking.", "anchors": ["ast/booklit.peg.go: read, restore, parseActionExpr, onInvoke1"]}
{"id": "C08", "title": "Line-ending style does not matter", "statement": "Converting every LF of a document to CRLF changes neither whether it parses nor the resulting tree, except for byte offsets.", "quantifier": "every document that contains no CR", "why_tests_cant": "Every document and every position of line breaks, inside comments, arguments, verbatim blocks; tests try three documents.", "anchors": ["ast/booklit.peg: LineBreak", "tests/line_endings_test.go"]}
{"id": "C09", "title": "Rejected input is reported inside the file", "statement": "If parsing fails, the reported location lies within the file: its offset is at most the file size and its line at most one more than the number of line feeds; a document that is not valid UTF-8 is always rejected. A syntax error is reported far enough: every document with the same text up to the reported place and a few bytes more is rejected at that place.", "quantifier": "every byte string that does not parse", "why_tests_cant": "All malformed inputs.", "anchors": ["ast/booklit.peg.go: failAt, addErr, parse, read", "ast/errors.go: UnpackError", "load/processor.go: EvaluateFile"]}
{"id": "C10", "title": "Documents can be written for every syntax tree", "statement": "Printing any syntax tree in normal form (paragraphs, lines, text, escapes, nested invocations with line arguments) and parsing it back yields the same tree up to source locations.", "quantifier": "every normal-form tree of any size and nesting", "why_tests_cant": "Unbounded trees; nesting of arguments exercises ordered choice and backtracking.", "anchors": ["ast/booklit.peg", "ast/node.go"]}
{"id": "C11", "title": "Loading yields a consistent section tree", "statement": "After any load, with any plugins that use the Section API, every child's Parent is the section listing it, no section is listed twice, and following Parent always ends at a section without parent (no cycles).", "quantifier": "every document, file system, plugin set and evaluation depth", "why_tests_cant": "All documents and all plugin programs.", "anchors": ["load/processor.go: EvaluateNode, EvaluateFile", "baselit/plugin.go: Section, IncludeSection", "section.go"]}
{"id": "C12", "title": "Section numbers are unique and describe the position", "statement": "Number() of a section is the dot-joined list of one-based positions on the path from the top section, empty only for the top, and two different sections of one tree never share a number.", "quantifier": "every consistent section tree of any width and depth", "why_tests_cant": "Uniqueness must hold for every pair of sections, e.g. 1.11 vs 11.1.", "anchors": ["section.go: Number"]}
{"id": "C13", "title": "Tag lookup is complete and position-independent", "statement": "FindTag(name) called on any section of a tree returns every tag named name defined anywhere in the tree, each exactly once; calling it from another section of the same tree returns the same tags up to order. SimilarTags does the same for its predicate.", "quantifier": "every consistent section tree, every pair of sections in it, every name", "why_tests_cant": "The up-and-down search with an exclusion must not miss or duplicate any tag in any tree shape.", "anchors": ["section.go: FindTag, SimilarTags, filterTags"]}
{"id": "C14", "title": "A reference resolves iff its tag is defined exactly once", "statement": "Reference.Tag returns the tag when exactly one tag of that name exists in the tree; an unknown-tag error when none exists (unless optional); and an ambiguity error listing every definition when several exist; with AllowBrokenReferences it never fails.", "quantifier": "every tree, reference position and tag multiplicity", "why_tests_cant": "All trees and multiplicities.", "anchors": ["reference.go: Tag, resolve, Display"]}
{"id": "C15", "title": "A resolved reference never changes its mind", "statement": "Once Reference.Tag has returned a real tag, every later call returns the same tag whatever is added to the tree in between; failures are not remembered.", "quantifier": "every history of calls interleaved with tree changes", "why_tests_cant": "All histories.", "anchors": ["reference.go: Tag, resolve"]}
{"id": "C16", "title": "Tree queries agree with the tree", "statement": "Contains is exactly the reflexive descendant relation, IsOrHasChild its one-step version, Top the unique parentless ancestor, Depth the distance to it, FilePath the path of the nearest ancestor that came from a file.", "quantifier": "every consistent tree, every pair of sections", "why_tests_cant": "All trees.", "anchors": ["section.go: Contains, IsOrHasChild, Top, Depth, FilePath"]}
{"id": "C17", "title": "Next-navigation visits every split page once, in order, and stops", "statement": "Starting at the top section and following Next enumerates exactly the sections reachable through split parents, in depth-first order, each once, and then returns nil; Prev is the previous sibling or else the parent.", "quantifier": "every consistent tree and every assignment of SplitSections", "why_tests_cant": "All tree shapes; a wrong sibling rule loops or skips only on some shapes.", "anchors": ["section.go: Next, NextSibling, Prev"]}
{"id": "C18", "title": "Every section is rendered on exactly one page", "statement": "Each section of a tree has exactly one page owner (itself or an ancestor), and the sections rendered inline by a page are exactly those it owns; so over all written pages every section appears exactly once.", "quantifier": "every consistent tree and every assignment of SplitSections", "why_tests_cant": "All trees.", "anchors": ["render/common.go: sectionPageOwner", "render/html/section.tmpl", "render/writer.go: WriteSection"]}
{"id": "C19", "title": "No dangling page links", "statement": "The page part of the URL of any tag of any section in the tree is the name of a file that WriteSection writes when given the top section.", "quantifier": "every consistent tree, every tag in it, every file extension", "why_tests_cant": "All trees and all tags.", "anchors": ["render/common.go: sectionURL", "render/writer.go: WriteSection, writeSingleSection"]}
{"id": "C20", "title": "WriteSection writes exactly the pages", "statement": "WriteSection writes one file per section whose parent is absent or split, in depth-first order, named after its primary tag, and nothing else; when primary tags of pages are distinct no page overwrites another; at the first render error it stops.", "quantifier": "every consistent tree, every engine outcome", "why_tests_cant": "All trees and failure points.", "anchors": ["render/writer.go: WriteSection, writeSingleSection"]}
{"id": "C21", "title": "Link fragments exist on the linked page", "statement": "With the bundled HTML templates the fragment of the URL of a section tag, or of a target collected from a title or body outside partials, is the id of an anchor rendered on the page named by the URL.", "quantifier": "every loaded document and tag", "why_tests_cant": "All documents, nesting of content and page splits.", "anchors": ["render/common.go: sectionURL", "render/html/section.tmpl", "render/html/target.tmpl", "stages/collect.go"]}
{"id": "C22", "title": "The search index covers exactly the tags of the tree", "statement": "The search index has one entry per tag name occurring in the tree, describing a tag of that name (the last in depth-first order when a name is repeated): its URL, title, depth and owning section's primary tag, and its own text or else its section's body text.", "quantifier": "every consistent tree", "why_tests_cant": "All trees and duplicate patterns.", "anchors": ["render/writer.go: loadTags, WriteSearchIndex"]}
{"id": "C23", "title": "Default tags are safe file names", "statement": "The default tag of any title consists only of lower-case ASCII letters, digits, underscore and hyphen, so the page file name derived from it contains no path separator; letters and digits of the title all survive, lower-cased and in order.", "quantifier": "every title text, including invalid UTF-8", "why_tests_cant": "All strings.", "anchors": ["section.go: defaultTag, SetTitle"]}
{"id": "C24", "title": "StripAux removes auxiliary content and nothing else", "statement": "StripAux leaves no Aux wrapper in the result, removes exactly the Aux elements of sequences, paragraphs, lists, tables, keeps all other text in order, is idempotent, and does not touch content without Aux.", "quantifier": "every content value of any shape", "why_tests_cant": "Unbounded nesting of 15 content kinds.", "anchors": ["aux_.go"]}
{"id": "C25", "title": "Append concatenates content", "statement": "Appending one content to another yields a sequence whose elements are those of the first followed by the second, and appending nil is the identity; folding it over a list yields the flat sequence of the list.", "quantifier": "every pair/list of contents", "why_tests_cant": "All lists; the variadic form is only ever exercised with one element by tests.", "anchors": ["append.go"]}
{"id": "C26", "title": "IsFlow is decided by block leaves", "statement": "A content is flow exactly if no block-level content (paragraph, list, table, definitions, preformatted, table of contents, section, block-styled or block-lazy) occurs at a sequence/style/link/aux position of it.", "quantifier": "every content value", "why_tests_cant": "Unbounded nesting.", "anchors": ["sequence.go", "styled.go", "lazy.go", "paragraph.go", "link.go", "aux_.go"]}
{"id": "C27", "title": "Evaluation keeps the paragraph structure", "statement": "Evaluating a document whose invocations are free of side effects yields, in order, one paragraph per source paragraph with one line per source line that produced content; a paragraph consisting of a single block is replaced by the block; paragraphs producing nothing vanish.", "quantifier": "every syntax tree", "why_tests_cant": "All documents.", "anchors": ["stages/evaluate.go: VisitParagraph, VisitPreformatted, VisitSequence, VisitString"]}
{"id": "C28", "title": "Functions dispatch to the first plugin that defines them", "statement": "Invoking a function calls the method of the first plugin, in registration order, that has it; if none does the load fails with an undefined-function error carrying the name and location, and no plugin code runs.", "quantifier": "every section plugin list, every function name", "why_tests_cant": "All plugin lists.", "anchors": ["stages/evaluate.go: VisitInvoke", "ast/node.go: Method"]}
{"id": "C29", "title": "Arity is enforced before evaluation of arguments", "statement": "A call with the wrong number of arguments (not equal, or fewer than the fixed ones for variadic methods) fails without evaluating any argument or running the method; otherwise the method receives exactly the given arguments in order.", "quantifier": "every method signature and argument list", "why_tests_cant": "All arities.", "anchors": ["stages/evaluate.go: VisitInvoke, convert"]}
{"id": "C30", "title": "Plugin errors surface unchanged or wrapped once", "statement": "An error returned by a function aborts the load: an error that is already pretty is returned as is, any other is wrapped with the function name and location; content following it is not evaluated.", "quantifier": "every document position and every error", "why_tests_cant": "All positions and nestings.", "anchors": ["stages/evaluate.go: VisitInvoke", "errors.go"]}
{"id": "C31", "title": "A section's title is set at most once", "statement": "After a successful load no section has had a second non-empty title accepted; a second \\title in the same section fails the load with a title-twice error pointing at both.", "quantifier": "every document", "why_tests_cant": "All documents and nestings.", "anchors": ["baselit/plugin.go: Title", "section.go: SetTitle"]}
{"id": "C32", "title": "single-page overrules split-sections below it", "statement": "A section evaluated while it or an ancestor is marked single-page never gets SplitSections; and every section that called split-sections has ResetDepth so header depths are kept.", "quantifier": "every document and plugin program using the section API", "why_tests_cant": "All nestings and orders of calls.", "anchors": ["baselit/plugin.go: SinglePage, SplitSections", "section.go: SplitSectionsPrevented"]}
{"id": "C33", "title": "Inline sections inherit plugins, included ones do not", "statement": "An inline section starts with exactly the plugins its parent has at that moment; an included file starts with only the base plugin; plugins used by a child never leak to its parent or siblings.", "quantifier": "every document", "why_tests_cant": "All nestings.", "anchors": ["baselit/plugin.go: Section, IncludeSection, UsePlugin", "load/processor.go: evaluateSection"]}
{"id": "C34", "title": "Includes are relative to the including file", "statement": "The file loaded by \\include-section{p} is p resolved against the directory of the file containing the call, even inside nested inline sections.", "quantifier": "every nesting of inline sections and path", "why_tests_cant": "All nestings.", "anchors": ["baselit/plugin.go: IncludeSection", "section.go: FilePath"]}
{"id": "C35", "title": "Loading a document does not crash", "statement": "Loading any document with only the base plugin returns a section or an error; it does not panic.", "quantifier": "every document", "why_tests_cant": "All documents; reflection calls and nil contents panic only for specific shapes.", "anchors": ["stages/evaluate.go: convert, VisitInvoke", "aux_.go", "baselit/plugin.go"]}
{"id": "C36", "title": "The parse cache never serves stale content", "statement": "Evaluating a file uses the syntax tree of the file's current content, whatever earlier loads and file changes happened.", "quantifier": "every history of file writes and loads, including concurrent ones", "why_tests_cant": "All histories and modification times.", "anchors": ["load/processor.go: EvaluateFile"]}
{"id": "C37", "title": "Template reloading reflects the template directory", "statement": "After LoadTemplates returns without error, the engine's templates are the bundled ones overridden by the files currently in the directory.", "quantifier": "every history of template directory changes and LoadTemplates calls", "why_tests_cant": "All histories incl. failed loads and deletions.", "anchors": ["render/html.go: LoadTemplates", "render/text.go: LoadTemplates"]}
{"id": "C38", "title": "Lazy content is computed exactly once", "statement": "However many goroutines force a Lazy concurrently, its function runs at most once, and every Force that returns returns that run's result.", "quantifier": "every number of goroutines and every interleaving", "why_tests_cant": "All interleavings.", "anchors": ["lazy.go"]}
{"id": "C39", "title": "The server serves every page under its URL", "statement": "Requesting the path of the URL of any page of the book serves the section owning that page when tags are unique; '/' serves the section tagged index; a path that names no tag is delegated to the file server.", "quantifier": "every tree and request path", "why_tests_cant": "All trees and paths.", "anchors": ["booklitcmd/server.go: ServeHTTP, loadRequestedSection"]}
{"id": "C40", "title": "Error annotation never crashes and splits the line faithfully", "statement": "Rendering the source snippet of any error location does not panic, and prefix, annotated part and suffix concatenate to the source line.", "quantifier": "every error location and file content", "why_tests_cant": "All locations including line breaks and end of file, multi-byte characters.", "anchors": ["errors.go: AnnotatedHTML, AnnotateLocation, lineInQuestion"]}
{"id": "C41", "title": "Anchor queries agree with the tags", "statement": "AnchorTags returns exactly the section's tags with an anchor, in order; HasAnchors is true iff the section or one of its transitively inlined descendants has an anchored tag.", "quantifier": "every consistent tree", "why_tests_cant": "All trees.", "anchors": ["section.go: HasAnchors, AnchorTags"]}
{"id": "C42", "title": "Tables of contents list every visible section once", "statement": "The table of contents of a section lists exactly its descendants that have no proper ancestor (up to and including the section) omitting its children, in depth-first order, each with its number and URL.", "quantifier": "every consistent tree and assignment of the omit flag", "why_tests_cant": "All trees.", "anchors": ["render/html/toc.tmpl", "render/text/toc.tmpl", "toc.go"]}
{"id": "C43", "title": "Text rendering preserves text", "statement": "With the bundled text templates, rendering strings, sequences, paragraphs and preformatted content emits their text, lines joined by one space and one newline respectively; content without a bundled template is an error, never silently dropped.", "quantifier": "every content value", "why_tests_cant": "All contents.", "anchors": ["render/text.go", "render/text/*.tmpl"]}
{"id": "C44", "title": "Document text cannot inject HTML", "statement": "With the bundled HTML templates every character of document text appears escaped: the rendered markup is balanced and its tags come only from the templates.", "quantifier": "every content built by the base plugin", "why_tests_cant": "All contents and all strings.", "anchors": ["render/html.go", "render/html/*.tmpl"]}
{"id": "C45", "title": "Partials behave like a map", "statement": "Partial(name) returns the content most recently set under name, nil if never set, and setting one name never affects another.", "quantifier": "every history of SetPartial calls", "why_tests_cant": "All histories.", "anchors": ["section.go: SetPartial, Partial"]}
{"id": "C46", "title": "Tables and definitions are validated", "statement": "\\table succeeds iff every row is a list and then has exactly those rows; \\definitions succeeds iff every item is a two-element list and then pairs them in order.", "quantifier": "every list of arguments", "why_tests_cant": "All lists.", "anchors": ["baselit/plugin.go: Table, TableRow, Definitions, Definition"]}
{"id": "C47", "title": "Slow-invoke warnings are consistent", "statement": "For every invocation the slow warning is logged at most once, exactly one completion line is logged, and it says slow exactly if the timer fired before completion.", "quantifier": "every interleaving of the timer goroutine and the invocation", "why_tests_cant": "All interleavings.", "anchors": ["stages/evaluate.go: VisitInvoke"]}
{"id": "C48", "title": "Header depths are valid HTML and follow resets", "statement": "headerDepth is between 1 and 6 and equals one plus the number of ancestors up to the nearest depth reset, capped at 6.", "quantifier": "every consistent tree", "why_tests_cant": "All trees and depths.", "anchors": ["render/html.go: headerDepth", "section.go: PageDepth"]}
{"id": "C49", "title": "Evaluated text equals source text", "statement": "The text (String) of the evaluated body of a document without invocations is the concatenation of its String nodes, with a space between lines and a blank line after each paragraph.", "quantifier": "every invocation-free syntax tree", "why_tests_cant": "All trees.", "anchors": ["stages/evaluate.go", "string.go", "sequence.go", "paragraph.go", "preformatted.go"]}
{"id": "C50", "title": "Collection finds every target once", "statement": "After loading, a section's tags are its title tags followed by one anchored tag per target occurring in its title, body and partials outside the text of references and other targets, in order (partials in any order), and targets inside a child section belong to that child only.", "quantifier": "every document/section tree and every map iteration order", "why_tests_cant": "All contents and the runtime's random map iteration order.", "anchors": ["stages/collect.go"]}
{"id": "C51", "title": "References and titles record where they were written", "statement": "The location recorded for a reference, target or title is that of its own invocation.", "quantifier": "every document", "why_tests_cant": "Depends on nested invocations in arguments.", "anchors": ["stages/evaluate.go: VisitInvoke (InvokeLocation)", "baselit/plugin.go: Reference, Target, Title"]}
{"id": "C52", "title": "Syntax-highlight transformers preserve the text", "statement": "Transformer.TransformAll splits a string into the unmatched pieces in order and the transformed matches, losing and duplicating nothing; SyntaxTransform applies this only to strings.", "quantifier": "every string and every set of regexp matches", "why_tests_cant": "All strings.", "anchors": ["chroma/plugin.go: TransformAll, SyntaxTransform"]}
{"id": "C53", "title": "Function names map to method names predictably", "statement": "The method name of a function is its hyphen-separated words with the first letter upper-cased; functions whose words agree call the same method, and names with different words call different methods.", "quantifier": "every function name the parser can produce", "why_tests_cant": "All names.", "anchors": ["ast/node.go: Method"]}
{"id": "C54", "title": "Plugin registration is last-wins", "statement": "LookupPlugin(name) finds the factory most recently registered under that name and fails exactly when none was.", "quantifier": "every history of registrations", "why_tests_cant": "All histories.", "anchors": ["plugin.go"]}
{"id": "C55", "title": "Loading terminates", "statement": "Loading a document terminates whatever files include one another.", "quantifier": "every file system", "why_tests_cant": "Include graphs are unbounded; only cyclic ones misbehave.", "anchors": ["baselit/plugin.go: IncludeSection", "load/processor.go: EvaluateFile"]}
{"id": "C56", "title": "Rendering text of titles terminates", "statement": "String() of any loaded content terminates.", "quantifier": "every document", "why_tests_cant": "Only self-referential titles misbehave.", "anchors": ["reference.go: String", "section.go: SetTitle"]}
{"id": "C57", "title": "References link to their tag and show the right text", "statement": "In HTML a reference is a link to the page and place of the one tag with its name, around its own content or else the tag's title; a missing tag gives the content of an optional reference and an error otherwise; several tags are an error; with broken references allowed the errors become links to #broken.", "quantifier": "every tree, reference and content", "why_tests_cant": "All trees, positions and combinations of options.", "anchors": ["reference.go", "render/html/reference.tmpl", "render/common.go: sectionURL"]}
{"id": "C58", "title": "String() says what the content says", "statement": "String() of a content is determined by its parts: sequences concatenate, paragraphs join with spaces and end with a blank line, list items are numbered from 1 and indented, tables and definitions are written row by row, references say their content, their tag's title or what is wrong.", "quantifier": "every content and tree", "why_tests_cant": "Unbounded nesting of 15 content kinds; the methods are only tested through rendering.", "anchors": ["string.go", "sequence.go", "paragraph.go", "list.go", "table.go", "definitions.go", "reference.go: String", "section.go: String"]}
{"id": "C59", "title": "The search index file is readable JSON", "statement": "The file written by WriteSearchIndex is one line of JSON: an object with exactly one member per tag name of the book, in byte order of the names, whose fields read back as the entry's location, title, text, depth and section tag; bytes that are not UTF-8 are replaced by U+FFFD; it contains no raw <, > or &.", "quantifier": "every book, every text in it", "why_tests_cant": "All texts: quotes, control characters, invalid UTF-8, U+2028; tests use plain ASCII.", "anchors": ["render/writer.go: WriteSearchIndex"]}
{"id": "C60", "title": "Links between pages lead somewhere", "statement": "In a built book every href is either a link the author wrote, with its URL percent-encoded, or leads to the file of a page of the book and, if it names a place, to an anchor that page contains.", "quantifier": "every document, every page of it", "why_tests_cant": "All combinations of sections, splits, titles, targets, references and tables of contents; tests look at single templates.", "anchors": ["render/html/*.tmpl", "render/common.go: sectionURL", "render/writer.go"]}
{"id": "C61", "title": "A build produces the site", "statement": "A successful build writes exactly the pages of the chosen section (and the index of the book on request) and nothing else, or prints the page when there is no destination; every page of a whole book is well-formed and its links lead to files that were written; --section-tag fails exactly for tags the book does not have; before everything is loaded nothing is written.", "quantifier": "every set of files (as bytes), option, destination directory", "why_tests_cant": "End to end over all books and options; the repository has no test of the command at all.", "anchors": ["booklitcmd/command.go: Build", "load/processor.go", "render/writer.go"]}
{"id": "C62", "title": "Error reports show the place of the error", "statement": "The printed report of an error that knows its place begins with file and line and what is wrong, followed by the source line with a row of carets below exactly the invocation; similar tags and other definitions are all listed; an error within an error follows with every line indented and none lost.", "quantifier": "every error, nesting depth, document and position, including characters of several bytes", "why_tests_cant": "All errors, documents and nestings; the tests only check that some error page is shown.", "anchors": ["errors.go: PrettyPrint, Annotate, AnnotateLocation", "booklitcmd/main.go"]}
{"id": "C63", "title": "Error pages are complete and harmless", "statement": "The page shown for an error is well-formed HTML made of the template's elements whose text is the explanation of the error with its source line, the invocation marked; nothing in names, messages or source becomes markup; the page is always complete.", "quantifier": "every error and file content", "why_tests_cant": "All errors and all hostile strings.", "anchors": ["errors.go: PrettyHTML, AnnotatedHTML, ErrorResponse", "errhtml/*.tmpl"]}
{"id": "C64", "title": "Errors tell the place they arose at", "statement": "An error of loading or rendering a book names the file and position of the invocation that caused it, in whichever included file and however deeply nested, and at that position the file has that very function name; references that do not resolve name the reference and every definition of the tag; the printed report shows that line with the invocation underlined.", "quantifier": "every disk of files, document, nesting of sections and includes, sequence of loads, and order of map iteration", "why_tests_cant": "All documents and all ways to fail; the tests contain a handful of errors.", "anchors": ["stages/evaluate.go", "baselit/plugin.go", "load/processor.go", "reference.go", "errors.go", "booklitcmd/command.go"]}
{"id": "C65", "title": "Builds are reproducible", "statement": "Go visits the entries of a map in an order that may differ from run to run. Whatever that order, building a book ends the same way, and the same bytes are written to the same pages; failures are the same up to the order in which they list suggestions and definitions. If no section registers a name twice, the search index is the same as well; otherwise it may differ.", "quantifier": "every document, plugin, engine, set of options (with --section-path: plugins that do not look at the order of tags), and pair of orders of map iteration", "why_tests_cant": "All pairs of orders; tests see the order of one run.", "anchors": ["stages/collect.go", "section.go", "reference.go", "render/html.go", "render/text.go", "render/writer.go", "booklitcmd/command.go"]}
{"id": "C66", "title": "The bundled templates do what is said of them", "statement": "The templates that come with both engines parse and can be escaped, so that starting does not panic. Executing them, by the rules of Go's template language and of its HTML escaping, gives for each content and each page the bytes that the model of rendering gives, fails when that fails, with the same error of a reference, and goes on for ever when that does.", "quantifier": "every tree of sections, content, and page; both engines; every extension of text pages", "why_tests_cant": "All documents against the text of the templates; tests see some examples, mostly with templates of their own.", "anchors": ["render/html.go", "render/text.go", "render/html/*.tmpl", "render/text/*.tmpl", "render/bindata.go"]}
{"id": "C67", "title": "Documents cannot write markup, whatever the templates", "statement": "With the bundled templates, and with any templates added to them that do not use rawHTML, an HTML page consists of text written in the templates, of text without any of < > and quotes, and of the text of those contents that have the style raw-html. Where a template inserts other content with rawHTML this does not hold.", "quantifier": "every document, every set of templates of which only raw-html.tmpl uses rawHTML, every page", "why_tests_cant": "All templates and documents; a test shows single strings escaped.", "anchors": ["render/html.go", "render/html/raw-html.tmpl"]}
{"id": "C68", "title": "A template matters only where it is used", "statement": "Adding or replacing templates changes only pages of which rendering needs one of these, and those of a style for which a page template is among them.", "quantifier": "every document, every two sets of templates, both engines", "why_tests_cant": "Needs the whole of rendering, for all documents.", "anchors": ["render/html.go", "render/text.go"]}
{"id": "C69", "title": "The command's exit status tells whether it did what was asked", "statement": "The command exits with 0 only when all pages asked for have been written or printed, with the templates given and the bundled ones otherwise. When anything fails (templates, loading, an unknown tag, rendering, writing, compiling or starting the program with the plugins) it exits with 1 after a message ending in a line feed, and what fails before the first page leaves the destination alone. With --plugin it does what the program with these plugins compiled in does without the option, with the same status; that program imports exactly booklitcmd and the plugins, if their paths contain no quotation mark, backslash or line feed.", "quantifier": "every command, every plugin set, every directory of templates, every disk", "why_tests_cant": "Needs every way in which a run can fail, and arbitrary templates and plugins.", "anchors": ["booklitcmd/main.go", "booklitcmd/command.go"]}
{"id": "C70", "title": "The server shows what is on disk now, as a build would write it", "statement": "A reply of the server depends on the files, the templates and the path of the request only, not on earlier requests, as long as a file or template that has changed has a later time than before (and, for templates, none is deleted and a failed load is followed by a change). For a page of the book it is byte for byte the file that a build would write at that moment with the same options.", "quantifier": "every sequence of requests with such changes in between, every book, plugins and templates", "why_tests_cant": "Needs the parse cache and the template cache along arbitrary histories, and equality of two whole pipelines.", "anchors": ["booklitcmd/server.go", "load/processor.go", "render/html.go"]}
{"id": "C71", "title": "Each function of the base plugin does what it is for", "statement": "Every function of the base plugin other than \\section and \\include-section, called with any arguments: the content it stands for (style, link, image, list, table, definitions, reference, target, table of contents, aux) is made of its arguments as given, or exactly the fields of its section it is about are set (title with its tags, style, partial, plugin, page splitting), nothing else changing; or it gives the documented error.", "quantifier": "all arguments, sections and states, with any other plugins in use", "why_tests_cant": "A table of some thirty functions against the evaluator, each for every number and type of arguments it accepts.", "anchors": ["baselit/plugin.go", "section.go", "stages/evaluate.go"]}
{"id": "C72", "title": "Booklit documents are highlighted as what they are", "statement": "The lexer for Booklit documents gives tokens for every text that together are the text, and none is empty. In a document functions are keywords, braces built-in names, verbatim text and comments (which nest) are of their types with their delimiters, and all else is text. Only single backslashes that no name and nothing to escape follows, and in verbatim text braces that another or nothing follows, are marked as errors.", "quantifier": "all texts; all documents made of plain text, functions, escapes, braces, verbatim text and nested comments", "why_tests_cant": "A table of regular expressions run by a stack machine, against a grammar of documents with the type of every character; comments nest to any depth.", "anchors": ["chroma/booklit_lexer.go"]}
{"id": "C73", "title": "From the source of a book to its pages", "statement": "For every book (sections to any depth with titles, tags, splitting, omission from tables of contents; paragraphs, lists, code, tables, definitions and tables of contents; styled words, links, images, references and targets) in which every reference is to something there is exactly one of, and every document that the language says is its source, building prints exactly the page told from the book alone: headings with depth and numbers, escaped text, links to the addresses of what is referred to, nested tables of contents. With an output directory exactly the pages told from the book are in the files named by their main tags, the last one if several have the same name, and no other file changes.", "quantifier": "all such books, sources, directories, environments with the base plugin, sufficient depth of evaluation and rendering", "why_tests_cant": "Composition of everything: parsing, evaluating, collecting, numbering, resolving, rendering, writing, against a description of the pages that knows no sections in memory, pointers or passes.", "anchors": ["booklitcmd/command.go", "load/processor.go", "stages/evaluate.go", "stages/collect.go", "baselit/plugin.go", "render/html.go", "render/writer.go", "section.go", "ast/booklit.peg.go"]}
{"id": "C74", "title": "How a book is split into files does not show", "statement": "A subsection written in a file of its own and named with include-section, at any depth and with names relative to the directory of the file naming it, gives the same pages as the subsection written in place: every way of splitting a book into files on a disk prints the page, and fills the output directory with the files, that are told from the book alone; two ways of splitting it give the same output.", "quantifier": "all books as in C73, all ways to split them into files, disks, directories, depths", "why_tests_cant": "Include-section is how large books are written; a wrong base directory, a section attached at the wrong place, lost plugins or a stale parse would change pages.", "anchors": ["baselit/plugin.go", "load/processor.go", "section.go", "stages/evaluate.go"]}
{"id": "C75", "title": "The search index of a book lists its tags", "statement": "Building a book with an index leaves, next to the pages, one JSON file whose members are the tags and anchors of the book in byte order: each with the address at which the pages link to it, its title as text, the text of the section it is in (references without words read as the title of what they refer to), the depth of that section and the section's tag; of several with the same tag the last in the book is kept; whatever can be referred to is listed with the address of the reference.", "quantifier": "all books as in C73 and C74, all ways of splitting them into files", "why_tests_cant": "The index drives the search box; a wrong address, depth or text sends readers elsewhere.", "anchors": ["render/writer.go", "booklitcmd/command.go", "section.go", "reference.go", "paragraph.go", "list.go"]}
{"id": "C76", "title": "Books with broken references", "statement": "With --allow-broken-references every book is built: a reference to a tag that nothing or several things have is a link to the anchor 'broken' of its own page, showing its words or else the text {broken reference: tag}, and reads as that text in the index. Without it, printing a page fails with the error of the first such reference on that page (unknown tag, or ambiguous with as many definitions as there are), and only then; building files writes the pages before the first page with such a reference, begins that page's file, and leaves all other files, the index among them, as they were.", "quantifier": "all books as in C73 and C74, whatever their references are to", "why_tests_cant": "The flag is the development mode of a site; without it the error must name the right reference and not leave pages of a half-built site behind silently.", "anchors": ["reference.go", "section.go", "render/html.go", "render/writer.go", "booklitcmd/command.go"]}
{"id": "C77", "title": "The template language of templates of books", "statement": "A template file written as Go's documentation says - texts and actions between {{ and }}, trimming markers, pipelines of commands with fields, variables, functions, strings, numbers, constants and parentheses, if, with, range (with variables) and their else, template calls, definitions - is read as exactly what it says, and cannot be taken in two ways. Executing it gives a text exactly if it means that text by the rules of the documentation: which values are empty, what the dot and $ are where, the scopes of variables, how arguments and piped values are passed, that and/or stop early, ranges with indices, and which data another template is called with.", "quantifier": "all template texts and trees, all data and sets of templates", "why_tests_cant": "Books bring their own templates, so the language itself and not only the bundled templates must be right.", "anchors": ["render/html.go", "render/text.go", "render/html", "render/text"]}
{"id": "C78", "title": "Where values stand in HTML templates", "statement": "In an HTML template every value is written for the place where it stands, on every way through the template: in the content of elements and in quoted attribute values it is read back as the value itself; at the beginning of an attribute that holds a URL it gives a URL that runs no script; after the ? or # of a URL it is one component that reads as the value; in a name it is a plain word or ZgotmplZ. A template with a value in a script, a style sheet, an event handler or a style attribute, with branches that end in different places, or that ends inside of a tag is not executed.", "quantifier": "all templates written with quoted attribute values and without non-empty scripts and style sheets; all values", "why_tests_cant": "Templates of books insert text by authors and from files into HTML; what is inserted must not become markup or script, whatever the template is.", "anchors": ["render/html.go", "render/html"]}
{"id": "C79", "title": "Template files", "statement": "The template files of a directory that can be read and are written as they should be are all taken. A template of the engine is then the last body that a file (in order of names) has for its name and that is not only blanks, and otherwise what is bundled; a body of blanks replaces nothing. In one file a name has at most one body that is not blank, be it the file's own or a definition, or loading fails; line feeds at the end of a file are no part of it. A file that cannot be read makes loading fail.", "quantifier": "all directories of template files; all bundled sets", "why_tests_cant": "A book replaces templates by files; which one is executed for an element must be clear from the files.", "anchors": ["render/html.go", "render/text.go"]}
{"id": "C80", "title": "Parser", "statement": "The text of a syntax error is 'no match found, expected: ' and a list of what stopped the parser at the position the error is reported at: everything a matcher of the grammar looked for there and did not find, and with a '!' everything that it found and that must not be there. The list is in order of bytes, has each text once, has the end of the file last and is never empty; 'a', 'a or b', 'a, b or c'. Nothing stopped the parser further on. A document that is not UTF-8 gets 'invalid encoding', and only documents that parse get no text.", "quantifier": "all documents that do not parse", "why_tests_cant": "The message is what an author has to go on when a document does not parse.", "anchors": ["ast/booklit.peg.go", "ast/errors.go"]}
{"id": "C81", "title": "Plugins", "statement": "The functions of the plugins that come with booklit beside the base plugin (those of the documentation, the syntax function of the chroma plugin, the quote function of the hello example): which there are, and for all arguments that evaluate to something what content they stand for, when they fail and with what, and when they crash. Names of functions in highlighted code become links and arguments in braces are emphasized exactly where they stand; a definition is a target with its title, thumbnail and content; a godoc reference splits at its first dot, its stars are no part of the address. None of them changes a section. Found: a godoc reference without a dot, and a definition of something that is not a plain invocation, crash the program.", "quantifier": "all sections whose plugins include these, all arguments, any highlighter", "why_tests_cant": "The plugins are what the documentation of booklit is written with and the examples that authors of plugins start from.", "anchors": ["docs/go/plugin.go", "docs/hello/go/plugin.go", "chroma/plugin.go"]}
{"id": "C82", "title": "Templates", "statement": "What templates can ask of sections, contents, tags, definitions and what the functions of the engines give them, for any book and any values: the number, page, place, file, depth, neighbours, anchors and partials of a section, whether it contains another or is or has it as a child; the tag a reference leads to and what it displays; not, eq, ne, len; the addresses of tags; levels of headings; joined lines. Nothing else that is listed is given, and apart from the order of tags found no template is told two things.", "quantifier": "all books in the form the loader makes, all values and arguments", "why_tests_cant": "Users write templates against these; one that is told the wrong parent, number or address writes wrong pages.", "anchors": ["section.go", "reference.go", "tag.go", "content.go", "render/html.go", "render/text.go"]}
{"id": "C83", "title": "Books as plain text", "statement": "For every book as in C73, in one file or several, built with a file name extension and the bundled text templates: either every content of a page is one there is a template for (text, insets, paragraphs, sections, tables of contents), and then the page is exactly its title, an empty line and the section with its number, title, text and the sections on the page; or the build fails, telling (when printing) the first template that is missing, after writing exactly the pages before. Found: the text of a section follows its title without a space or line end.", "quantifier": "all books, all ways of laying them out in files", "why_tests_cant": "Text output is made for terminals and search; a user must be able to know which books it works for and what comes out.", "anchors": ["render/text.go", "render/text/*.tmpl", "render/writer.go", "booklitcmd/command.go"]}
{"id": "C84", "title": "A section of a book on its own, and books in the server", "statement": "For every book as in C73, in one file or several: with --section-tag, the first section in the order of the text that has the tag or an anchor of that name is chosen, and an unknown tag is told as such. Printing shows exactly its page (HTML or text) with number, links and references as in the whole book; with --out exactly its page, if it has one, and those of the pages below are written, which are pages of the whole build; the search index is that of the whole book. A server without templates of its own, after any requests and changes of files, answers a request for NAME.html with the first section tagged NAME in the book as it is now, and with every page of a book by its file name if its tags differ. Found: building a section that is not a page of its own writes nothing and succeeds; the index of such a build is for pages that are not written.", "quantifier": "all books, all ways of laying them out in files, all histories of requests", "why_tests_cant": "Partial builds and the server must agree with the whole build, or what an author sees while writing is not what is published.", "anchors": ["booklitcmd/command.go", "booklitcmd/server.go", "section.go", "render/writer.go"]}
{"id": "C85", "title": "A section that is loaded below a book", "statement": "For every book and every section as in C73, each in one file or several: --section-path shows the section exactly as it would be shown as the last section of the book (its number, header level, links, and references into the book and into itself), which is also what --section-tag shows of the book that has it there. With --out its page, if the book's sections have pages, and those of the sections below are written, and nothing of the book is; where a reference is to nothing or to several things the pages before it are there and the error says so. As text likewise. The search index is that of the book alone. Found: a section that the book already includes and that refers to itself cannot be built in this way (ambiguous reference); below a book that is not split nothing is written and the build succeeds; the search index lacks the page that is written.", "quantifier": "all books, all sections, all ways of laying them out in files", "why_tests_cant": "This option is for looking at one file without the cost of the whole; what it shows has to be what the book will show.", "anchors": ["booklitcmd/command.go", "load/processor.go", "section.go", "render/writer.go"]}
{"id": "C86", "title": "Books on a single page", "statement": "For every book as in C73, in one file or several, whose first file says \\single-page: a build writes one file, which holds every section of the book, and no other; where the same files without \\single-page are built as a book with pages, the sections have the same numbers, titles and header levels on the one page as they have on the many, every reference that led somewhere leads to the same thing, shown the same, at an anchor of that page. A section in the middle of a book that says so has everything below it on its page. As text likewise. Found: the additional single page for which the documentation recommends it cannot be had, since a chapter that is both on its own page and on the single page can not be referred to.", "quantifier": "all books, all sections and files of it saying \\split-sections or not", "why_tests_cant": "One marker at the top changes where everything is; nothing must be lost or renumbered by it.", "anchors": ["baselit/plugin.go", "section.go", "render/writer.go"]}
{"id": "C87", "title": "The pages of the documentation", "statement": "With the templates in docs/html loaded over the bundled ones: they are all taken and escaped, and every other template stays the bundled one. Every section of a tree is given the page described (title, link to the front page, navigation bar, the section itself) unless some part of that cannot be rendered; the bar has an entry for every chapter, in order, each leading to that chapter, and marks exactly one of them, the one the page belongs to, or none on the front page. Sections have headings at their level, linked numbers that say their position, their body and, when they do not split, the sections below; a splash is only its body. The styles of the documentation surround their contents as described, and other contents are as without these templates: among them references, which link to the one section with the tag, and tables of contents, which list every section below with number and title. That sections know their first tag holds after any loads with any plugins. Found: the URL of an output frame is escaped twice.", "quantifier": "all trees of sections, all contents, all pages", "why_tests_cant": "This is the one site built with templates of its own, and shows how they work together with the program.", "anchors": ["docs/html/page.tmpl", "docs/html/section.tmpl", "docs/html/columns.tmpl", "docs/html/definition.tmpl", "docs/html/output-frame.tmpl", "docs/html/splash.tmpl", "render/html.go"]}
