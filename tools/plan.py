plan.update({
"C01": "a rank on expressions decreases whenever no input is consumed (no left recursion, no loop over an empty match); induction on remaining input and rank (PegTotal.v).",
"C02": "the interpreter agrees with a typed recursive-descent parser (DescentProofs.v, DescentRules.v), whose results have the shape (Shape.v).",
"C03": "a declarative grammar (Grammar.v) saying how trees are written; every derivation is parsed to its tree (GrammarParse.v); escaping derives the text.",
"C04": "as C03, for verbatim arguments (Verbatim.v).",
"C05": "as C03, with the indentation of the block as a parameter of the derivation.",
"C06": "as C03; Written.v relates texts that differ in comments only.",
"C07": "invariant tying the parser's position to the consumed prefix (Positions.v).",
"C08": "simulation between the runs of the descent parser on the two texts, cursor by cursor; inside comments a line end takes one step on one side and two on the other (LineEnds.v).",
"C09": "the recorded furthest failure is a position of the text (PegErrs.v); two runs on texts that agree beyond it are compared step by step (PegTwin.v).",
"C10": "the printer derives, and derivations are parsed (WrittenProofs.v, GrammarParse.v).",
"C11": "the heap invariant is kept by every evaluation step, for arbitrary plugins (EvalProofs.v, EvalFrame.v).",
"C12": "induction along the path from the top (NavProofs.v).",
"C13": "the upward search visits each section of the tree once (TagProofs.v).",
"C14": "case analysis over the complete set of definitions (QueryProofs.v).",
"C15": "state machine over arbitrary histories of heaps (RefCache.v).",
"C16": "induction over consistent heaps (TreeProofs.v).",
"C17": "Next is the successor in the depth-first listing (NavProofs.v).",
"C18": "page ownership is the unique non-inlined ancestor (WriterProofs.v).",
"C19": "URLs computed through page ownership (NavProofs.v).",
"C20": "induction over the list of pages.",
"C21": "anchors written by the templates against tags collected (HtmlAnchors.v).",
"C24": "induction on contents.", "C26": "induction on contents.",
"C27": "a big-step relation following the tree (EvalSpec.v) equivalent to the evaluator (EvalTheory.v).",
"C30": "a relation saying when evaluation fails (EvalSpec.v) equivalent to the evaluator (EvalFail.v).",
"C31": "relation between the sections before and after (EvalOnce.v).",
"C35": "triples over the evaluator with the only ways to panic as exceptions (EvalEnds.v, LoadEnds.v); an inductive description of the panics, proved exact by induction on fuel and on derivations (CrashSpec.v, EvalCrash.v).",
"C36": "invariant of a transition system: what is cached was read at that modification time (CacheProofs.v).",
"C37": "invariant over histories of directory states (TemplatesProofs.v).",
"C38": "invariants of a transition system with any number of goroutines (LazyProofs.v).",
"C44": "output read back with an independent tokenizer (HtmlSpec.v), composition of tokenized pieces (HtmlProofs.v).",
"C47": "invariants of a transition system (SlowProofs.v).",
"C50": "the collector against an occurrence relation (CollectSpec.v, CollectProofs.v).",
"C55": "well-founded induction on the include relation (EvalEnds.v, LoadEnds.v).",
"C56": "well-foundedness of the relation between shown titles (StringEnds.v).",
"C57": "C13's search and C19's URLs composed with the template.",
"C58": "a mutually inductive big-step specification (Says.v) both ways.",
"C59": "bytes as encoding/json writes them (Json.v) read back with a functional reader (JsonSpec.v, JsonProofs.v).",
"C60": "every token of a page is traced to a content or a tag (HtmlLinks.v); URLs are followed by an independent reader (UrlSpec.v); every created section is in the tree (Listed.v).",
"C61": "composition of C01, C02, C20, C44, C59, C60 (Command.v, Props_Command.v).",
"C62": "model Report.v; lemmas on texts made of whole lines; function_line of C40.",
"C63": "model Report.v; a reading of HTML as in C44 with the text it says (ErrorPage.v); the templates are read from their text and executed (ErrSrc.v, ErrTmpl.v), which gives the same HTML (ErrTmplProofs.v).",
"C64": "spec LocSpec.v; an invariant of the heap (every mark of a section lies in the section's file) and a postcondition of every step of evaluation (EvalAt.v), of collection (CollectAt.v) and of rendering (RefAt.v).",
"C65": "spec ReproSpec.v; each step of collection denotes a bag of (section, target), the same for both orders (Repro.v); everything that reads a heap gives the same for heaps that differ in the order of collected tags (ReproRead.v, ReproIndex.v), evaluating a further file included (ReproEval.v).",
"C66": "spec TmplSpec.v (same_results); the interpreter of templates is run on the text of the bundled templates (TmplSrc.v); per template a lemma (TmplHtml.v, TmplText.v), then induction over both bounds (TmplFuel.v, TmplTextFuel.v).",
"C67": "spec TmplSafeSpec.v (inert, made, occurs, raw_only_there); invariant of values in the interpreter (good), induction over templates and the nesting (TmplSafe.v).",
"C68": "runs with more templates or more depth are related by one lemma about executing a template with better results of the rest (TmplMono.v).",
"C69": "Program.v: Main, Execute, Build with templates, reexec; the statuses by cases over Command.build_with (C61) and Templates.load (C37); the bundled templates through C66; pages of other templates through C67; a small reader of Go imports as the specification of the generated program.",
"C70": "Serve.v: the handler with its parse cache and template engine as state; evaluation with two caches that hold what files held is related step by step (CacheFree.v); templates through C37; the build through C61 and C69.",
"C71": "BaseSpec.v: for each function, by its name in documents, the content it makes, the fields it sets (all others equal, field by field) or the error it returns; BaseRuns.v proves each method against it; lifted to invocations through the evaluation relation.",
"C72": "Lexer.v: the rules as tables and chroma's engine; Props_Lexer.v: a grammar of documents giving the type of each character (comments nest), proved by showing that each piece is consumed by the engine with its types whatever follows; errors by inversion of the rules.",
"C73": "Book.v: books, their syntax trees and their pages, as plain functions. BookEval.v, BookStore.v, BookSections.v: evaluating the tree lays the sections out in memory one after the other (big-step semantics, completeness for the fuel); BookCollect.v: collecting adds the anchors; BookPlaces.v: numbers, depths, addresses and entries by induction over the book; BookHtml.v: rendering; BookBuild.v, Props_Book.v: composed with the grammar theorem (C03) and the writer (C20).",
"C74": "BookLaid.v (specification): ways of splitting a book into files. BookSections.v: evaluation of include-section lays out the same sections (cache agrees with the files: CacheFree.v); Props_Files.v.",
"C75": "BookText.v (specification): the documents of a book. BookIndex.v: String() of bodies and titles, depth, addresses; Props_Index.v.",
"C76": "Book.v (span_html, page_refs, pages_refs, missing, refused); BookHtml.v proves rendering with a predicate [gives] that covers both outcomes; BookBuild.v carries it to the build; Props_Broken.v.",
"C77": "Spec in TmplWritten.v (syntax, from characters) and TmplMeaning.v (a big-step relation); TmplReads.v proves the lexer and the parser without fuel and then against the syntax; TmplMeaningProofs.v both directions of execution; Props_TmplText.v.",
"C78": "Spec in HtmlRead.v (reading text as HTML, kinds of attributes, places on all ways through a template); HtmlReadProofs.v against TmplEsc.v; Props_Places.v. Prompted by seeded bugs in attr_kind and join_ctx that no theorem noticed.",
"C79": "Spec in TmplFiles.v (blank bodies, which body of a file and of a directory is taken); TmplFilesProofs.v against Tmpl.parse and Templates.add_files; Props_TmplFiles.v. Prompted by a seeded bug in empty_tree that no theorem noticed; the model now also has the error for two definitions in a file.",
"C80": "Expected.v is the interpreter of Peg.v with maxFailExpected and a log of all tries; ExpectedProofs.v: it runs as Peg.v, the list is what the log has at the furthest position, the log is what the grammar comes to (looks) and says the truth about the document; Props_Expected.v.",
"C81": "Docs.v has the plugins as method tables of Evaluate.v; DocsSpec.v says what they give, with the matches of the regular expressions as a relation; DocsProofs.v: the methods come to what is said, and that is determined; Props_Docs.v takes it through the evaluator.",
"C82": "MembersSpec.v says for each field, method and function what it gives, with parents, descendants and positions as relations on the tree; MembersProofs.v: the model's member and apply_func (the field and func of C77's template_executes) give exactly that; Props_Members.v.",
"C83": "BookPlain.v: the text of a book and the templates it lacks, by recursion on the book; BookPlainProofs.v: the text renderer gives it for the sections C73's proof shows a book is loaded as, page by page; Props_Plain.v.",
"C84": "BookChoose.v: the tags of a book with their sections, the pages from a section; BookChooseProofs.v: FindTag at the top gives them in the order of the text, and what is rendered and written; BookServe.v: the same for the server through C66 and C70; Props_Choose.v.",
"C85": "BookUnder.v: the book with one more section; BookUnderProofs.v: LoadFileIn puts the section beside the book in the heap, so its number comes from an index that is not found, its tags from walking up to the top and down its own tree; then as C84, with places, pages and text told for any root (BookPlaces.v, BookHtml.v, BookPlainProofs.v); Props_Under.v.",
"C86": "Book.v's sections say whether those below have pages, are on the same page, or are there though they say \\split-sections; BookLaid.v: which of these files mean, with what is above; BookSections.v: evaluation keeps track of whether something above prevents splitting (held, above in BookStore.v) and so gets there; BookSingle.v: the book on one page; Props_Single.v: it is in one file (induction over the files), compared section by section with the book with pages.",
"C87": "DocsTmpl.v: the sources of docs/html and the set they make with the bundled ones; DocsPages.v: what running each of them does, one level; SiteSpec.v: pages, navigation, sections as strings over how contents are rendered; SiteLoad.v: an invariant of evaluation (the first tag is among the tags); Props_Site.v.",
})
