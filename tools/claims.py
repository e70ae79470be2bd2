claim("C12", "proved", "number_describes_position every_section_has_a_position numbers_are_unique number_empty_only_at_top")
claim("C13", "proved", "find_tag_complete similar_tags_complete find_tag_position_independent find_tag_scope",
      "SimilarTags for an arbitrary similarity predicate.")
claim("C14", "proved", "reference_resolution broken_references_never_fail")
claim("C15", "proved", "resolved_reference_is_stable only_real_tags_are_remembered failures_are_not_remembered")
claim("C16", "proved", "contains_is_descendant is_or_has_child_is_one_step top_is_parentless_ancestor depth_is_distance_to_top file_path_is_nearest")
claim("C17", "proved", "next_visits_split_pages_once split_listing_exists prev_is_sibling_or_parent prev_of_top_is_nil")
claim("C18", "proved", "page_owner_is_unique every_section_on_exactly_one_page page_shows_what_it_owns")
claim("C19", "proved", "tag_urls_point_to_pages no_dangling_page_links")
claim("C20", "proved", "write_section_writes_pages_in_order pages_are_pages pages_are_distinct write_section_success write_section_failure pages_overwrite_each_other_refuted",
      "The file system is modelled as a map; os.OpenFile failures via a predicate.")
claim("C22", "proved", "search_index_contents search_index_entry search_index_succeeds",
      "The String() methods are a parameter of these theorems.")
claim("C41", "proved", "has_anchors_spec anchor_tags_in_order")
claim("C48", "proved", "header_depth_follows_resets header_depth_is_valid_html")
claim("C23", "proved", "default_tag_is_safe default_tag_file_has_no_separator default_tag_keeps_letters ampersand_only default_tag_words default_tag_of_words default_tag_and default_tag_empty_refuted",
      "Finding: titles without ASCII letters or digits get an empty default tag.")
claim("C24", "proved", "strip_aux_removes_aux strip_aux_keeps_the_rest strip_aux_idempotent strip_aux_identity strip_aux_crashes_iff strip_aux_total_refuted strip_aux_drops_all_aux_text_refuted",
      "Findings: StripAux crashes on references and targets without content; Aux directly inside a style or link is only unwrapped.")
claim("C25", "proved", "append_one append_to_nil append_nil_is_identity append_fold append_variadic_refuted",
      "The statement, which is about the one-element form (the only one used), is proved; that the variadic form appends all its arguments is refuted.")
claim("C26", "proved", "flow_iff_no_block_part")
claim("C45", "proved", "partials_behave_like_a_map fresh_section_has_no_partials")
claim("C53", "proved", "method_names_follow_words method_name_of_words title_case_of_word")
claim("C54", "proved", "plugin_registration_is_last_wins")
claim("C11", "proved", "loaded_children_point_back loaded_children_listed_once loaded_parents_end loaded_section_is_top load_keeps_earlier_sections",
      "For every history of loads (LoadFile and LoadFileIn) with any plugins that use the section API only.")
claim("C50", "proved", "collection_finds_every_target collection_adds_targets collection_of_nested_targets_refuted collection_of_nil_partial_refuted",
      "Findings: targets inside another target or a reference are not collected; a nil partial panics the collector.")
claim("C27", "proved", "evaluation_follows_tree tree_is_evaluated document_structure")
claim("C28", "proved", "call_dispatches_to_first_plugin undefined_function_fails")
claim("C29", "proved", "wrong_arity_fails arguments_are_passed_in_order")
claim("C30", "proved", "evaluation_error_is_a_failure failure_aborts_evaluation failure_stops_evaluation returned_errors_surface errors_are_wrapped_once")
claim("C31", "proved", "title_is_set_once second_title_fails",
      "Plugins other than the base plugin are assumed not to call SetTitle themselves.")
claim("C32", "proved", "single_page_prevents_splitting split_sections_reset_depth single_page_afterwards_refuted",
      "Plugins other than the base plugin are assumed not to set SplitSections themselves. Finding: \\single-page after \\split-sections in the same section does not undo it.")
claim("C33", "proved", "inline_section_inherits_plugins included_section_has_base_plugin plugins_do_not_leak")
claim("C34", "proved", "include_is_relative_to_file section_files included_section_has_base_plugin")
claim("C49", "proved", "text_documents_keep_their_text",
      "For documents whose lines all have text; Preformatted blocks excepted.")
claim("C46", "proved", "table_needs_lists definitions_need_pairs table_in_document", "")
claim("C51", "proved", "reference_location_exact target_location_exact title_location_exact own_location_refuted reference_location target_location title_location own_location_partial",
      "The claim as stated is false (own_location_refuted): a nested invocation overwrites the location. The exact theorems say, for every document with the "
      "base plugin only, which location is recorded: that of the last invocation in the arguments, or else its own. With other plugins: its own or a nested one.")
claim("C01", "proved", "parse_terminates rule_terminates")
claim("C02", "proved", "parse_shaped actions_never_panic string_one_line")
claim("C07", "proved", "invoke_located")
claim("C09", "proved", "error_in_file error_place_decides invalid_utf8_rejected encoding_error_exact error_column_refuted blank_document_refuted",
      "A syntax error is reported at a place such that the text up to it and eight more bytes decides that there is an error, and where. Findings: an error at a line feed is reported one line too far with column 0; empty documents and documents ending in a line of blanks do not parse.")
claim("C03", "proved", "escaped_text grammar_sound grammar_unambiguous",
      "For every non-empty valid UTF-8 text without line breaks not starting with a blank. "
      "leading_blank_refuted shows why the last condition is needed.")
claim("C04", "proved", "verbatim_exact verbatim_argument",
      "As a whole document and as an argument in any context of the declarative grammar. "
      "verbatim_brace_refuted: text ending in a closing brace cannot be written this way.")
claim("C05", "proved", "block_indentation",
      "For verbatim blocks that are not inside another block. nested_indent_refuted: a block inside a "
      "block uses the outer indentation, because the parser keeps it in one shared variable.")
claim("C06", "proved", "comment_in_line nested_comment comments_no_trace",
      "Comments of any nesting after words and between paragraphs. Where the informal claim fails is "
      "recorded: comment_argument_refuted (directly after an invocation it is an argument), "
      "comment_line_refuted (on a line of its own it splits the paragraph), comment_blanks_refuted "
      "(blanks before it are dropped unless they belong to a text).")
claim("C10", "proved", "print_parse",
      "Normal trees: text, escapes, empty groups, invocations with empty, line, paragraph and "
      "preformatted arguments, to any depth; preformatted blocks not inside one another.")
claim("C38", "proved", "lazy_once lazy_result lazy_agree lazy_progress lazy_terminates",
      "sync.Once as a state machine with any number of goroutines. lazy_panic_refuted: if the function "
      "panics later calls return nothing.")
claim("C47", "proved", "slow_warned_once slow_end_once slow_end_after slow_fast_silent slow_finished_warned "
      "slow_exclusive slow_progress slow_order_refuted",
      "Timer goroutines and evaluating goroutines of any number of invocations sharing the mutex. "
      "slow_order_refuted: 'still running' can be logged after 'finished'.")
claim("C36", "proved", "cache_fresh cache_current cache_granularity_refuted cache_backwards_refuted",
      "Proved when modification times distinguish versions; false otherwise, with witnesses for equal "
      "and for decreasing modification times.")
claim("C37", "proved", "templates_valid templates_bundled templates_override templates_stat templates_unchanged templates_deleted_refuted "
      "templates_failed_refuted templates_older_refuted templates_empty_refuted",
      "Proved for histories without deletions, with newer times for new contents and a change after a "
      "failed load; false otherwise, with witnesses.")
claim("C39", "proved", "server_page server_loaded server_root server_response server_untitled_refuted server_front_refuted",
      "Request paths begin with a slash. server_untitled_refuted: a page without title is not served; "
      "server_front_refuted: '/' serves nothing unless a section is tagged index.")
claim("C40", "proved", "annotated_parts annotated_right_line annotated_function annotated_column_refuted "
      "annotated_end_refuted annotated_utf8_refuted annotated_buffer_refuted",
      "Proved for columns from 1, ASCII before the mark and lines shorter than the reader's buffer; false "
      "otherwise: column 0 panics, marks past the end of a line show nothing of it, columns count "
      "characters but bytes are cut, long lines are counted as several.")
claim("C52", "proved", "transform_all_pieces splits_unique transform_seq_rewritten syntax_text transform_raw_refuted",
      "Regular expressions by the contract of FindAllStringIndex; lexer and formatter as their output. "
      "transform_raw_refuted: text made by a transformer goes out unescaped.")

claim("C44", "proved",
      "html_content_wellformed html_page_wellformed base_pages_wellformed html_string_exact html_text_shown "
      "html_link_url base_raw_html_refuted base_page_style_refuted",
      "For every heap and content free of the raw-html style: the output tokenizes with an independent strict "
      "tokenizer, is balanced, contains only template elements and attributes, and URLs have only harmless schemes; "
      "holds for all documents loaded with the base plugin unless a section is given the style raw-html, in which case "
      "the claim is false (base_raw_html_refuted). Text is shown unchanged up to white space. Templates are modelled by "
      "the strings they write.")

claim("C21", "proved", "fragments_exist base_fragments_exist partial_fragment_refuted styled_fragment_refuted",
      "For every consistent tree whose sections have the default style, and for every document loaded with the base "
      "plugin: the URL of each tag of a section or of a target shown in its title or body names the owning page, and "
      "the fragment is the id of an anchor token of that page's rendering. Targets in partials and sections styled "
      "like another bundled template have no anchor (_refuted).")
claim("C42", "proved", "toc_lists toc_text_lists toc_rendered untitled_toc_refuted",
      "HTML and text tables of contents: one entry per listed section, depth-first, interleaved with markup that shows nothing; rendered whenever every entry can be. Refuted for untitled sections: they have no URL, so the HTML table is an error.")
claim("C43", "proved", "text_exact text_plain_ok text_never_drops text_page_sections text_page_never_drops html_page_sections text_title_separated_refuted text_styled_page_refuted",
      "Exact output for strings, sequences, paragraphs, preformatted, inset and auxiliary content; anything without a template makes the rendering fail. Pages consist of their sections in depth-first order.")

claim("C56", "proved", "string_ends string_ends_refuted string_unique string_ends_direct",
  "As stated the claim is false: the title of a section may refer to the section, and then String() never ends (string_ends_refuted). "
  "string_ends says exactly when it ends: for every content of every book loaded with the base plugin, String() has a result iff no endless chain of titles shown by references starts there; "
  "it never fails otherwise. string_ends_direct: books whose titles contain no reference without a text of its own are fine.")
claim("C35", "proved", "load_no_panic_refuted load_panics load_no_panic nil_partial_fails plugin_panics_refuted",
      "The claim is false: load_no_panic_refuted gives four parsed documents that panic. load_panics says exactly which loads panic, for every "
      "document and every history of loads: those whose evaluation comes to an argument standing for no content, or to a title without tags that "
      "holds a reference or target without contents of its own. load_no_panic: files passing a syntactic check never panic.")
claim("C55", "proved", "load_ends_refuted load_ends load_ends_direct",
      "The claim is false for files that include one another in a cycle (load_ends_refuted: a file including itself). For every "
      "finite file system without such a cycle evaluation ends, except where C56's endless titles are concerned (load_ends); with "
      "titles that show no other titles it ends (load_ends_direct).")
claim("C57", "proved", "tag_address reference_links reference_missing reference_ambiguous reference_broken optional_reference_refuted",
      "For every consistent tree: the URL of a tag, exactly; what a reference becomes in HTML when its name has one, no or several "
      "definitions, with and without broken references allowed. An optional reference without content to a missing tag makes rendering fail (refuted).")
claim("C58", "proved", "string_says string_says_exactly",
      "A big-step specification of String() for every content kind; sound on every consistent tree, and exact for the contents of every book loaded with the base plugin.")
claim("C08", "proved", "line_ends line_ends_mixed_refuted",
      "For every document without carriage returns: it and its CRLF conversion are both rejected or parse into the same tree with the same lines and columns. "
      "A file that already mixes both styles is not covered, with a counterexample.")
claim("C59", "proved", "search_file_reads_back search_file_reads_mended mended_form search_file_bytes search_file_written search_file_error search_file_names_distinct_refuted",
      "The bytes encoding/json produces for the index (strings, integers, a struct, a map sorted by keys) against an independent reader of JSON. "
      "Two names that differ only in bytes that are not UTF-8 become members of the same name (refuted).")
claim("C60", "proved", "page_links loaded_sections_in_tree site_links colon_link_refuted reserved_link_refuted",
      "page_links: every tree with clean content. site_links: every book loaded with the base plugin from an empty processor, sections of the default style, "
      "broken references not allowed, tag names without # ? % / : NUL; links to targets in partials excepted (C19: partials are not shown). "
      "For tag names with : the link is #ZgotmplZ, with # ? or %41 another file (refuted).")
claim("C61", "proved", "build_chooses build_unknown_tag build_prints build_writes build_names build_fails build_site build_tag_refuted build_path_refuted build_part_index_refuted build_index_replaces_refuted",
      "From the bytes of the files through parser, evaluation, collection and rendering to the bytes of the site. The first six are for whatever pages the templates give. build_site: base plugin, whole book, HTML, the conditions of C60, "
      "distinct page names. Building a section that is no page writes nothing; the index is always that of the whole book and can replace a page (refuted).")
claim("C62", "proved", "report_headline report_plain report_lines report_nested report_carets report_points report_similar report_ambiguous report_title_twice report_column_refuted",
      "Columns count from one and lines are shorter than the buffer (C40). At a line feed the caret of a parse error is in the wrong place (refuted).")
claim("C63", "proved", "error_page_says error_page_frame error_page_marks error_page_complete error_page_function error_page_complete_refuted error_page_changed_refuted error_templates_parse error_templates_give error_page_template",
      "The HTML is what executing the text of errhtml/*.tmpl gives (error_templates_give). Complete whenever the source lines can be read and columns count from 1; parse errors at a line feed, and files that changed, break the page (refuted).")
claim("C64", "proved", "located_load located_marks located_reference located_text located_mark located_report located_somewhere located_build located_arity_refuted located_section_refuted located_display_refuted",
      "With the base plugin. A wrong number of arguments has no place of its own (refuted), and the place of a reference or title is that of the last invocation in its arguments, if any (refuted; see C51).")
claim("C65", "proved", "repro_load repro_pages repro_build repro_index_refuted repro_error_refuted",
      "Without --section-path for any plugins (they are functions of the model's state). With --section-path the second file is evaluated over a heap whose tags may be in another order; there the plugins must not look at the order of tags (indifferent), which holds of the base plugin (base_indifferent).")
claim("C66", "proved", "bundled_parse reference_same reading_bounds bundled_html_renders bundled_html_pages bundled_text_renders bundled_text_pages",
      "Relative to the model of text/template and html/template in Tmpl.v, TmplEsc.v and TmplExec.v. Errors other than those of references and of unforced contents are not told apart.")
claim("C67", "proved", "pages_made contents_made plain_templates bundled_safe own_safe raw_templates_refuted",
      "Relative to the model of html/template. raw_templates_refuted shows that the condition on rawHTML is needed.")
claim("C68", "proved", "more_templates other_templates other_templates_page more_depth",
      "Relative to the model of text/template and html/template.")
claim("C69", "proved", "program_status program_broken program_asked program_templates program_plugins program_bundled program_no_templates program_made program_imports program_imports_refuted",
      "Reading the command line, go install and starting a process are inputs of the model. program_bundled carries what is proved of Command.build (C60, C61, C64, C65) over to the command. The text of a panic and what is printed of a page that fails are not modelled.")
claim("C70", "proved", "server_forgets server_replies server_parses_once server_builds server_site server_older_refuted server_text_refuted",
      "Requests one after the other; C36 is about the cache under concurrent requests. server_site: base plugin, titled page, tag of its own. Files replaced by older ones keep being shown, and --text-file-extension is ignored by the server (refuted). The file server and headers are not modelled.")
claim("C71", "proved", "functions_all functions_do functions_end",
      "\\section and \\include-section are in C33 and C34. A title without tags and without a text (its text cannot be had) is left out: it fails in some way. Where a plugin used before the base plugin has the name, that one is called (C28).")
claim("C72", "proved", "lexer_keeps lexer_highlights lexer_errors lexer_comment_refuted lexer_verbatim_refuted",
      "chroma's engine is modelled from its documentation. Documents ending inside a comment or verbatim text are covered by lexer_keeps and lexer_errors only. Two places where the parser sees it differently are refuted: a comment after an escaped backslash, two closing braces in verbatim text.")
claim("C73", "proved", "book_prints book_files book_each_file book_text",
      "Books without plugins of their own, styles, partials and lazy contents; titles and what references show contain no references or targets. Files can be opened, no search index, HTML. For those see the properties of the parts.")
claim("C74", "proved", "parts_print parts_files parts_same",
      "The books of C73, each file with one section, included files not including themselves. A file may be included several times (parsed once).")
claim("C75", "proved", "book_index book_index_exact book_index_complete",
      "The documents are told from the book alone (BookText.v). book_index allows for texts that are not UTF-8, which JSON mends; book_index_exact is about books without any.")
claim("C76", "proved", "broken_print broken_files broken_index sound_page_print broken_page_refused broken_files_refused pages_refs_all",
      "How a broken reference is shown is in Book.v (span_html) and BookText.v (called); the errors are told by Book.refused, the references page by page by Book.pages_refs.")
claim("C77", "proved", "template_text_reads template_text_unambiguous template_executes engine_executes",
      "The language is the modelled part of it (Tmpl.v lists what is left out, and is taken as not parsing). Which fields and functions there are is a parameter of the rules; they are those of TmplExec.v. Go's checks of names at parse time are made at execution here.")
claim("C78", "proved", "actions_placed misplaced_refused misplaced_not_executed value_in_text value_in_attribute value_as_url value_in_query value_in_name",
      "How text reads as HTML is HtmlRead.v, written from the documentation of html/template; how written values are read back is the tokenizer of HtmlSpec.v and UrlSpec.unescape. Go allows values in scripts, style sheets and unquoted attribute values with escapers of their own, which are not modelled: here such templates are errors.")
claim("C79", "proved", "files_templates files_determined engine_files files_refused",
      "What is taken is TmplFiles.v, over texts written as in TmplWritten.v; files with comments or other syntax that is not modelled are outside of it.")
claim("C80", "proved", "expected_same_parse syntax_error_text matcher_texts looks_truly expected_missing encoding_error_text",
      "The matchers a parser comes to are [looks] (ExpectedSpec.v), a relation over the expressions of the grammar and the outcomes of parsing with them (Peg.v).")
claim("C81", "proved", "docs_all docs_determined docs_end docs_do syntax_end quote_end godoc_crashes docs_no_panic_refuted",
      "DocsSpec.v says what each function gives; the highlighter (lexers and formatters of the chroma library) and what fmt prints for a node that is no string are arbitrary functions.")
claim("C82", "proved", "members_told members_answered members_determined functions_give",
      "MembersSpec.v lists what can be asked; strip_aux is specified by C24's theorems, positions, inlined sections and lists of tags are the relations of TreeSpec.v, QueryProofs.v and TagProofs.v. Values that are compared by pointer are not modelled (an error).")
claim("C83", "proved", "plain_prints plain_files plain_all_files titles_apart_refuted",
      "BookPlain.v tells the text from the book alone. Books are those of C73 (no plugins of their own); the search index of text builds is not part of it.")
claim("C84", "proved", "section_prints section_prints_text section_files section_pages section_files_text section_index server_shows server_pages section_written_refuted index_written_refuted",
      "BookChoose.v tells from the book alone which section has a tag and which pages are from there. Books are those of C73 (no plugins of their own); --section-path is C61's.")
claim("C85", "proved", "path_prints path_prints_text path_is_last path_files path_files_broken path_files_text path_index path_twice_refuted path_written_refuted path_index_refuted",
      "BookUnder.v says where the section would be; the hypotheses about what it refers to are about that book with the section at its end. No plugins of the book's own.")
claim("C86", "proved", "single_below single_files single_text single_has_all single_looks single_refers single_added single_overrules single_page_additional_refuted",
      "Books of C73 with \\single-page and \\split-sections directly after the title; BookSingle.v tells the book on one page from the book with pages. single_overrules supposes that no file includes the first one.")
claim("C87", "proved", "site_templates site_pages site_sections site_marks site_splash site_styles site_columns_are site_definition_is site_plain site_kept site_references site_toc site_frames site_loaded site_frames_refuted",
      "The templates are those of docs/html, run by the template language of C77 and C78. sidebar.tmpl is only parsed and escaped: nothing uses it. Styles without a template, and those the bundled templates for text (string, raw-html) are used as, are not described.")
