-Q theories Verif
theories/Annotate.v
theories/AnnotateProofs.v
theories/Ast.v
theories/BaseFacts.v
theories/BaseInv.v
theories/BaseRuns.v
theories/BaseSpec.v
theories/Book.v
theories/BookBuild.v
theories/BookChoose.v
theories/BookChooseProofs.v
theories/BookCollect.v
theories/BookEval.v
theories/BookHtml.v
theories/BookIndex.v
theories/BookLaid.v
theories/BookPlaces.v
theories/BookPlain.v
theories/BookPlainProofs.v
theories/BookSections.v
theories/BookServe.v
theories/BookSingle.v
theories/BookStore.v
theories/BookText.v
theories/BookUnder.v
theories/BookUnderProofs.v
theories/Cache.v
theories/CacheFree.v
theories/CacheProofs.v
theories/Chroma.v
theories/Collect.v
theories/CollectAt.v
theories/CollectProofs.v
theories/CollectSpec.v
theories/Command.v
theories/Content.v
theories/ContentProofs.v
theories/ContentSpec.v
theories/CrashSpec.v
theories/Demo.v
theories/DemoDoc.v
theories/Descent.v
theories/DescentProofs.v
theories/DescentRules.v
theories/Docs.v
theories/DocsPages.v
theories/DocsProofs.v
theories/DocsSpec.v
theories/DocsTmpl.v
theories/Encoding.v
theories/EndSpec.v
theories/ErrSrc.v
theories/ErrTmpl.v
theories/ErrTmplProofs.v
theories/ErrorPage.v
theories/EvalAt.v
theories/EvalCrash.v
theories/EvalEnds.v
theories/EvalFail.v
theories/EvalFrame.v
theories/EvalInv.v
theories/EvalLoc.v
theories/EvalMore.v
theories/EvalOnce.v
theories/EvalProofs.v
theories/EvalSpec.v
theories/EvalText.v
theories/EvalTheory.v
theories/Evaluate.v
theories/Expected.v
theories/ExpectedProofs.v
theories/ExpectedSpec.v
theories/GoBase.v
theories/Grammar.v
theories/GrammarParse.v
theories/GrammarProofs.v
theories/Html.v
theories/HtmlAnchors.v
theories/HtmlLinks.v
theories/HtmlLoad.v
theories/HtmlPages.v
theories/HtmlProofs.v
theories/HtmlRead.v
theories/HtmlReadProofs.v
theories/HtmlRender.v
theories/HtmlSpec.v
theories/HtmlText.v
theories/HtmlToc.v
theories/Json.v
theories/JsonProofs.v
theories/JsonSpec.v
theories/Lazy.v
theories/LazyProofs.v
theories/Lexer.v
theories/LineEndSpec.v
theories/LineEnds.v
theories/Listed.v
theories/LoadEnds.v
theories/LoadProofs.v
theories/LocSpec.v
theories/MembersProofs.v
theories/MembersSpec.v
theories/NameProofs.v
theories/NavProofs.v
theories/NilPartial.v
theories/ParseSpec.v
theories/ParserMain.v
theories/Paths.v
theories/Peg.v
theories/PegBase.v
theories/PegErrs.v
theories/PegTotal.v
theories/PegTwin.v
theories/Positions.v
theories/Program.v
theories/Props_Anchors.v
theories/Props_Annotate.v
theories/Props_Base.v
theories/Props_Book.v
theories/Props_Broken.v
theories/Props_Cache.v
theories/Props_Choose.v
theories/Props_Chroma.v
theories/Props_Command.v
theories/Props_Content.v
theories/Props_Docs.v
theories/Props_Ends.v
theories/Props_ErrTmpl.v
theories/Props_ErrorPage.v
theories/Props_Evaluate.v
theories/Props_Expected.v
theories/Props_Files.v
theories/Props_Functions.v
theories/Props_Grammar.v
theories/Props_Html.v
theories/Props_Index.v
theories/Props_Json.v
theories/Props_Lazy.v
theories/Props_Lexer.v
theories/Props_LineEnds.v
theories/Props_Links.v
theories/Props_Load.v
theories/Props_Located.v
theories/Props_Members.v
theories/Props_Pages.v
theories/Props_Parser.v
theories/Props_Places.v
theories/Props_Plain.v
theories/Props_Program.v
theories/Props_Refs.v
theories/Props_Report.v
theories/Props_Repro.v
theories/Props_Safe.v
theories/Props_Says.v
theories/Props_Serve.v
theories/Props_Server.v
theories/Props_Single.v
theories/Props_Site.v
theories/Props_Slow.v
theories/Props_String.v
theories/Props_Templates.v
theories/Props_Text.v
theories/Props_Tmpl.v
theories/Props_TmplFiles.v
theories/Props_TmplText.v
theories/Props_Toc.v
theories/Props_Tree.v
theories/Props_Under.v
theories/QueryProofs.v
theories/RefAt.v
theories/RefCache.v
theories/Registry.v
theories/Render.v
theories/RenderFuel.v
theories/RenderSpec.v
theories/Report.v
theories/Repro.v
theories/ReproEval.v
theories/ReproIndex.v
theories/ReproRead.v
theories/ReproSpec.v
theories/Runs.v
theories/Says.v
theories/Section.v
theories/Serve.v
theories/Server.v
theories/Shape.v
theories/SiteLoad.v
theories/SiteSpec.v
theories/Slow.v
theories/SlowProofs.v
theories/Sound.v
theories/StrProofs.v
theories/StringEnds.v
theories/TagProofs.v
theories/Templates.v
theories/TemplatesProofs.v
theories/TextProofs.v
theories/TextRender.v
theories/Tmpl.v
theories/TmplBundled.v
theories/TmplEsc.v
theories/TmplEscProofs.v
theories/TmplExec.v
theories/TmplFiles.v
theories/TmplFilesProofs.v
theories/TmplFuel.v
theories/TmplHtml.v
theories/TmplInd.v
theories/TmplMeaning.v
theories/TmplMeaningProofs.v
theories/TmplMono.v
theories/TmplParseProofs.v
theories/TmplProofs.v
theories/TmplQuiet.v
theories/TmplReads.v
theories/TmplSafe.v
theories/TmplSafeSpec.v
theories/TmplSpec.v
theories/TmplSrc.v
theories/TmplText.v
theories/TmplTextFuel.v
theories/TmplWritten.v
theories/TreeProofs.v
theories/TreeSpec.v
theories/UrlProofs.v
theories/UrlSpec.v
theories/Utf8.v
theories/Verbatim.v
theories/Woven.v
theories/WriterProofs.v
theories/Written.v
theories/WrittenMore.v
theories/WrittenProofs.v
