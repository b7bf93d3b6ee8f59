{
 "claims": [
  {
   "property": "C01",
   "status": "proved",
   "theorems": [
    "C01_section_ids_unique",
    "C01_id_is_first_free",
    "C01_first_free_unique"
   ],
   "note": "Ids as stored in the document; the HTML template lower-cases them, see C51."
  },
  {
   "property": "C02",
   "status": "proved",
   "theorems": [
    "C02_toc_complete_in_order"
   ],
   "note": ""
  },
  {
   "property": "C03",
   "status": "proved",
   "theorems": [
    "C03_toc_nesting",
    "C03_regular_documents",
    "C03_toc_nesting_refuted",
    "C03_toc_nesting_refuted_skipped_level"
   ],
   "note": "Exact condition for every document; the two refuted theorems are concrete documents that fail it."
  },
  {
   "property": "C04",
   "status": "proved",
   "theorems": [
    "C04_section_tree",
    "C04_aggregation_total"
   ],
   "note": ""
  },
  {
   "property": "C05",
   "status": "proved",
   "theorems": [
    "C05_errors_are_dropped",
    "C05_error_reported_refuted"
   ],
   "note": "The expectation that failures are reported is refuted; what happens instead is proved for every stream."
  },
  {
   "property": "C06",
   "status": "proved",
   "theorems": [
    "C06_footnotes_numbered",
    "C06_references_resolve",
    "C06_empty_note_refuted",
    "C06_redefinition_refuted"
   ],
   "note": "For every document. Two surprising corners are part of the statement and exhibited: footnote:[] repeats the first anonymous note, and a second definition of a reference is a new note that no reference reaches."
  },
  {
   "property": "C07",
   "status": "proved",
   "theorems": [
    "C07_no_footnote_left",
    "C07_notes",
    "C07_nested_refuted",
    "C07_note_in_note_refuted"
   ],
   "note": "Exact (iff), for every document; the claim a user would expect (no macro left anywhere) is refuted for delimited blocks, tables, list continuations, quoted text, the document title and notes in notes."
  },
  {
   "property": "C08",
   "status": "proved",
   "theorems": [
    "C08_conditionals_select",
    "C08_condition_values"
   ],
   "note": "The emitted text is the join of the texts of the lines all of whose enclosing conditions were true when opened (specification PreSpec.visible), for every line grammar, file system and nesting depth; ifdef/ifndef mean set/not set."
  },
  {
   "property": "C09",
   "status": "proved",
   "theorems": [
    "C09_disabled_like_enabled",
    "C09_disabled_region",
    "C09_declaration_in_disabled_region_refuted",
    "C09_inclusion_in_disabled_region_refuted"
   ],
   "note": "The expected claim (a disabled region has no effect at all) is false: the two _refuted theorems exhibit a declaration taking effect and a file being opened. The statement records what the code does, for every region."
  },
  {
   "property": "C10",
   "status": "proved",
   "theorems": [
    "C10_total_order",
    "C10_integers",
    "C10_strings",
    "C10_transitive",
    "C10_directive",
    "C10_mixed_types_refuted",
    "C10_le_ge_never_parsed_refuted"
   ],
   "note": "Floats: the grammar produces none, so they are not in the value type of ifeval operands. The two defects (mixed types always false even with !=, <= and >= never parsed) are stated as theorems over all operands and all lines."
  },
  {
   "property": "C11",
   "status": "proved",
   "theorems": [
    "C11_relative_offsets",
    "C11_offsets_accumulate",
    "C11_absolute_offset",
    "C11_no_failure",
    "C11_tab_refuted",
    "C11_negative_level_refuted"
   ],
   "note": "Headings written with a tab are not moved (C11_tab_refuted) and a level below -1 panics (C11_no_failure gives the exact condition, C11_negative_level_refuted a document)."
  },
  {
   "property": "C12",
   "status": "proved",
   "theorems": [
    "C12_line_ranges",
    "C12_ranges_are_sorted"
   ],
   "note": "For every list of ranges and every way to sort them by start."
  },
  {
   "property": "C13",
   "status": "proved",
   "theorems": [
    "C13_tag_rules",
    "C13_verdict",
    "C13_iteration_order_irrelevant",
    "C13_negated_double_wildcard_refuted"
   ],
   "note": "Exact for every rule list; `!**` does not exclude anything, contrary to its documentation (C13_negated_double_wildcard_refuted)."
  },
  {
   "property": "C14",
   "status": "proved",
   "theorems": [
    "C14_outcome",
    "C14_end_without_start_refuted"
   ],
   "note": "Exact outcome for every file: a panic happens iff an end tag has no open start tag, which refutes the expected claim."
  },
  {
   "property": "C15",
   "status": "proved",
   "theorems": [
    "C15_configuration_first",
    "C15_configuration_unchanged"
   ],
   "note": "For every history of new/clone/set/unset/setAll on any number of contexts, on a heap model in which the maps are references (specification CtxSpec.attr_value)."
  },
  {
   "property": "C16",
   "status": "proved",
   "theorems": [
    "C16_contexts_isolated",
    "C16_clone_reads_the_same"
   ],
   "note": "On the heap model. The counters table and the level offsets are shared by clones in the code; they are not attributes."
  },
  {
   "property": "C17",
   "status": "proved",
   "theorems": [
    "C17_changes_only_declared",
    "C17_repeatable",
    "C17_second_conversion_refuted",
    "C17_leak_refuted"
   ],
   "note": "frame of a whole conversion on the modelled renderer, all elements; the two refuted theorems show that the frame cannot be strengthened to full independence"
  },
  {
   "property": "C18",
   "status": "proved",
   "theorems": [
    "C18_attributes_honoured",
    "C18_captions_refuted"
   ],
   "note": "C18_captions_refuted is the exception of the statement: the captions of the caller are always overwritten"
  },
  {
   "property": "C19",
   "status": "proved",
   "theorems": [
    "C19_meaning",
    "C19_plain_list",
    "C19_unknown_is_error",
    "C19_defaults",
    "C19_headers_and_attributes",
    "C19_repetition_refuted"
   ],
   "note": "The closed form covers every list of entries; 'without repetition' would be false (subs=quotes,quotes keeps both)."
  },
  {
   "property": "C20",
   "status": "proved",
   "theorems": [
    "C20_phases_cover",
    "C20_phase_two_exact",
    "C20_phase_two_exact_refuted"
   ],
   "note": "Exact for every list: the condition under which there is a second phase, and its content. The refuted theorem shows the exception of the statement."
  },
  {
   "property": "C21",
   "status": "proved",
   "theorems": [
    "C21_counters",
    "C21_hidden_start_refuted"
   ],
   "note": "Every history of uses whose values stay within Go's int range and valid code points; the ignored start value of {counter2} is part of the statement (effective)."
  },
  {
   "property": "C22",
   "status": "proved",
   "theorems": [
    "C22_round_trip",
    "C22_restored_at_every_depth",
    "C22_collision_refuted",
    "C22_index_term_refuted"
   ],
   "note": "For every content whose text is valid UTF-8 without U+FFFD, the placeholder delimiter; the two limits (text that looks like a placeholder, placeholders outside quoted text) are exhibited."
  },
  {
   "property": "C23",
   "status": "proved",
   "theorems": [
    "C23_filter_removes_exactly",
    "C23_idempotent",
    "C23_identity",
    "C23_table_header_refuted"
   ],
   "note": "Exact for everything reached through the elements of elements; header and footer rows of tables are not (stated for all tables)."
  },
  {
   "property": "C24",
   "status": "proved",
   "theorems": [
    "C24_run_conserved",
    "C24_conserved",
    "C24_homogeneous",
    "C24_outcome",
    "C24_nested_refuted",
    "C24_offset_refuted"
   ],
   "note": "For every run (also inside delimited blocks). C24_outcome is the exact success condition. Runs inside a block attached to an item are never arranged (C24_nested_refuted)."
  },
  {
   "property": "C25",
   "status": "proved",
   "theorems": [
    "C25_levels",
    "C25_siblings",
    "C25_same_marker",
    "C25_refuted"
   ],
   "note": "C25_levels fixes depth and marker of every item of every run; the expected claim \"equal markers give siblings\" is false when a bullet is replaced (C25_refuted: * a / - b / - c nests c in b)."
  },
  {
   "property": "C26",
   "status": "proved",
   "theorems": [
    "C26_merge",
    "C26_positions",
    "C26_nth_position",
    "C26_iteration_order",
    "C26_mapping",
    "C26_mapping_order",
    "C26_options_lost_refuted",
    "C26_roles_ignored_refuted",
    "C26_role_entry_refuted",
    "C26_case"
   ],
   "note": "C26_merge and C26_positions hold for every input; independence of the iteration order is characterised exactly (iff). The refuted theorems show what is lost: options of an earlier set, `roles` given as a plain string, maps that mix role and roles."
  },
  {
   "property": "C27",
   "status": "proved",
   "theorems": [
    "C27_merge_keeps_content",
    "C27_merge_keeps_all",
    "C27_merge_keeps_elements",
    "C27_reduce_keeps_content",
    "C27_adjacent_text",
    "C27_merge_twice",
    "C27_dash_refuted",
    "C27_no_adjacent_text_refuted",
    "C27_example"
   ],
   "note": "Adjacent strings characterised exactly (iff); the two refuted theorems show the exceptions (a space lost before ' -- ', adjacent strings after a nested slice)."
  },
  {
   "property": "C28",
   "status": "proved",
   "theorems": [
    "C28_no_special",
    "C28_identity",
    "C28_stable",
    "C28_ampersands",
    "C28_meaning",
    "C28_reads_back",
    "C28_case",
    "C28_case_meaning",
    "C28_meaning_refuted"
   ],
   "note": "All for every text. C28_meaning_refuted: a source that already has an entity, as \"&lt;\", is indistinguishable from the character it stands for."
  },
  {
   "property": "C29",
   "status": "proved",
   "theorems": [
    "C29_output_ascii",
    "C29_text_ascii",
    "C29_printable_unchanged",
    "C29_unicode_unchanged",
    "C29_faithful",
    "C29_links_refuted",
    "C29_page_title_refuted",
    "C29_passthrough_refuted",
    "C29_verse_refuted",
    "C29_link_text_refuted"
   ],
   "note": "The whole output (C29_output_ascii) and the conversion of a text. The strings that are not converted are listed in AlphaSpec.written; each exception is refuted on a concrete document."
  },
  {
   "property": "C30",
   "status": "proved",
   "theorems": [
    "C30_id_alphabet",
    "C30_letters",
    "C30_plain_title",
    "C30_no_trailing_separator",
    "C30_plain_no_trailing_separator",
    "C30_letters_example",
    "C30_example",
    "C30_no_trailing_separator_refuted"
   ],
   "note": "Alphabet, prefix, and the exact letters for every title; exact id for plain titles; no trailing separator under the stated condition (needed: the refuted theorem shows a title of quoted punctuation only giving \"_a__\")."
  },
  {
   "property": "C31",
   "status": "proved",
   "theorems": [
    "C31_cross_references",
    "C31_natural_cross_reference",
    "C31_settings_example",
    "C31_example",
    "C31_example_hyp",
    "C31_prefix_redeclared_refuted",
    "C31_symbol_in_title_refuted"
   ],
   "note": "C31_cross_references gives both ids exactly for all documents, so it is known exactly when reference and section meet; the refuted theorems are two documents where they do not."
  },
  {
   "property": "C32",
   "status": "proved",
   "theorems": [
    "C32_organize",
    "C32_cells",
    "C32_rows_cols",
    "C32_rows_default",
    "C32_columns_refuted",
    "C32_case"
   ],
   "note": "for every source, attributes and column definitions; C32_columns_refuted shows that without column definitions the number of columns can be smaller than the length of the header."
  },
  {
   "property": "C33",
   "status": "proved",
   "theorems": [
    "C33_shares",
    "C33_sum",
    "C33_floor_refuted",
    "C33_displayed_refuted",
    "C33_no_weight_refuted",
    "C33_case"
   ],
   "note": "with Flocq's binary64. Exact rounding down, displayed widths adding up to exactly 100, and zero total weight are refuted. Axioms: those of Coq's Reals and Classical_Prop."
  },
  {
   "property": "C34",
   "status": "proved",
   "theorems": [
    "C34_crashes_exactly",
    "C34_render_exact",
    "C34_enough_cells",
    "C34_exact_case",
    "C34_case",
    "C34_header_only_refuted",
    "C34_zero_columns_refuted",
    "C34_header_footer_refuted"
   ],
   "note": "exact characterisation (iff) of the crashing tables, from the source; the refuted theorems are instances of each kind."
  },
  {
   "property": "C35",
   "status": "proved",
   "theorems": [
    "C35_section_numbers",
    "C35_number_is_position",
    "C35_numbers_distinct",
    "C35_all_numbered",
    "C35_off_no_numbers",
    "C35_example",
    "C35_distinct_numbers_refuted",
    "C35_switch_in_preamble_refuted"
   ],
   "note": "Numbers characterised exactly (iff) for all trees; distinctness when numbering is not switched in the body, refuted otherwise; a switch in the preamble is not seen."
  },
  {
   "property": "C36",
   "status": "proved",
   "theorems": [
    "C36_preamble",
    "C36_no_preamble_without_section",
    "C36_no_preamble_without_title"
   ],
   "note": "Under the shape the filter stage guarantees (only front matter precedes the header)."
  },
  {
   "property": "C37",
   "status": "proved",
   "theorems": [
    "C37_header_found",
    "C37_title_kept",
    "C37_title_kept_refuted"
   ],
   "note": "Exact: the header is found iff only front matter and blank lines precede it; one attribute declaration before it loses the title for good."
  },
  {
   "property": "C38",
   "status": "proved",
   "theorems": [
    "C38_deterministic",
    "C38_terminates",
    "C38_no_deadlock",
    "C38_returns",
    "C38_parse_document",
    "C38_parse_document_returns"
   ],
   "note": "All interleavings of the goroutines, buffered channels and the done channel; for arbitrary refinement and substitution stages and the modelled footnote, list, filter and aggregation stages. Data races inside a fragment are excluded by assumption (a fragment is owned by one stage at a time)."
  },
  {
   "property": "C39",
   "status": "proved",
   "theorems": [
    "C39_all_end",
    "C39_parse_document",
    "C39_early_stop_leaks"
   ],
   "note": "Holds because the aggregation loop never stops early; C39_early_stop_leaks shows the goroutine leak that an early stop (a panic) would cause."
  },
  {
   "property": "C40",
   "status": "proved",
   "theorems": [
    "C40_validate_exact",
    "C40_panics_exact",
    "C40_no_error",
    "C40_rendered_as",
    "C40_rendered_as_undeclared",
    "C40_split",
    "C40_case",
    "C40_name_content_refuted",
    "C40_declared_in_document_refuted",
    "C40_downgrade_undone_refuted",
    "C40_front_matter_refuted",
    "C40_empty_refuted"
   ],
   "note": "Acceptance, panics and the final doctype characterised exactly; surprising consequences as refuted theorems."
  },
  {
   "property": "C41",
   "status": "proved",
   "theorems": [
    "C41_outcome",
    "C41_expand",
    "C41_details",
    "C41_details_any",
    "C41_meta",
    "C41_revision",
    "C41_nameless_refuted",
    "C41_leftover_refuted"
   ],
   "note": "Exact outcome for every list of authors, and the detail block for every configuration; exceptions as _refuted theorems."
  },
  {
   "property": "C42",
   "status": "proved",
   "theorems": [
    "C42_delimiters_nest",
    "C42_closing_restores",
    "C42_literal_inside_listing_refuted"
   ],
   "note": "Delimiters are the (kind, length) pairs the grammar reports; the grammar reports literal delimiters as listing ones (C42_literal_inside_listing_refuted)."
  },
  {
   "property": "C43",
   "status": "proved",
   "theorems": [
    "C43_indentation",
    "C43_unique"
   ],
   "note": ""
  },
  {
   "property": "C44",
   "status": "proved",
   "theorems": [
    "C44_relative_path",
    "C44_other_path",
    "C44_every_rendering",
    "C44_never",
    "C44_twice_refuted",
    "C44_percent_refuted"
   ],
   "note": "Exact for every number of renderings. url.Parse is a parameter."
  },
  {
   "property": "C45",
   "status": "proved",
   "theorems": [
    "C45_arguments",
    "C45_value_kept",
    "C45_value_cut_refuted",
    "C45_unset_refuted"
   ],
   "note": "Exact for every list of argument strings; the claim that any value is kept is false (cut at its second '=') and the exact condition is proved."
  },
  {
   "property": "C46",
   "status": "proved",
   "theorems": [
    "C46_consecutive",
    "C46_figure",
    "C46_table",
    "C46_example",
    "C46_document_order_refuted"
   ],
   "note": "C46_document_order_refuted: numbers of nested examples are not in document order and untitled example blocks use numbers up"
  },
  {
   "property": "C47",
   "status": "proved",
   "theorems": [
    "C47_plain_document",
    "C47_long_line",
    "C47_long_line_refuted"
   ],
   "note": "A line of 64 KB or more silently ends the document (C47_long_line, for every such document)."
  },
  {
   "property": "C48",
   "status": "proved",
   "theorems": [
    "C48_working_directory",
    "C48_inclusion_terminates",
    "C48_self_inclusion_refuted"
   ],
   "note": "Working directory restored for every outcome; acyclic inclusion terminates for every finite file system. Additionally: a self-including file never terminates."
  },
  {
   "property": "C49",
   "status": "proved",
   "theorems": [
    "C49_references_replaced",
    "C49_text",
    "C49_attribute_values"
   ],
   "note": "Every inline content (text, quoted text at any depth, attributes, locations of links and images) and every attribute state with string values; parsing the result again is an arbitrary function."
  },
  {
   "property": "C50",
   "status": "proved",
   "theorems": [
    "C50_predefined_rendered",
    "C50_symbols_rendered",
    "C50_specials_rendered",
    "C50_no_other"
   ],
   "note": "all names the grammar produces have a rendering; the table gives \"two-semicolons\" a single semicolon."
  },
  {
   "property": "C51",
   "status": "proved",
   "theorems": [
    "C51_headings_and_links",
    "C51_links_have_headings",
    "C51_links_unambiguous",
    "C51_example",
    "C51_case_refuted",
    "C51_escape_refuted",
    "C51_manpage_refuted"
   ],
   "note": "heading ids and link targets given exactly for all documents."
  },
  {
   "property": "C52",
   "status": "proved",
   "theorems": [
    "C52_last_wins",
    "C52_commute",
    "C52_backend_dropped_refuted",
    "C52_nil_refuted"
   ],
   "note": "Settings other than a nil attribute map: every field, attribute and macro has the value of the last setting about it; neighbouring settings about different things commute. The refuted theorems record that WithAttributes replaces everything (also what WithBackEnd set) and that a nil map makes a later WithAttribute panic."
  },
  {
   "property": "C53",
   "status": "proved",
   "theorems": [
    "C53_split_keeps_content",
    "C53_lines_have_no_newline",
    "C53_insert_at"
   ],
   "note": "Content without nested slices (which is what source blocks contain)."
  },
  {
   "property": "C54",
   "status": "proved",
   "theorems": [
    "C54_terminates",
    "C54_self_reference_refuted"
   ],
   "note": "the renderer model is total in the depth of the call stack; every self or mutual reference of titles overflows it"
  },
  {
   "property": "C55",
   "status": "proved",
   "theorems": [
    "C55_well_formed",
    "C55_elements_well_formed",
    "C55_example",
    "C55_horizontal_refuted",
    "C55_literal_roles_refuted",
    "C55_lt_refuted",
    "C55_button_refuted",
    "C55_menu_refuted",
    "C55_image_title_refuted",
    "C55_icon_refuted",
    "C55_quote_refuted",
    "C55_alt_refuted"
   ],
   "note": "All elements, templates of both backends, page included (HtmlSpec.wf). Conditions on the document in HtmlDocSpec.v; the refuted theorems show that the exceptions are real. Syntax highlighting, user macros and raw passthrough content are assumed to give well-formed markup (sane)."
  },
  {
   "property": "C56",
   "status": "proved",
   "theorems": [
    "C56_outcome",
    "C56_kept",
    "C56_item_text",
    "C56_first_item_text",
    "C56_attached_text",
    "C56_attributes",
    "C56_line_after_block_refuted",
    "C56_comment_splits_refuted"
   ],
   "note": "Exceptions stated as _refuted theorems for every text and block."
  },
  {
   "property": "C57",
   "status": "proved",
   "theorems": [
    "C57_element",
    "C57_text_kept",
    "C57_example",
    "C57_item_title_refuted",
    "C57_fenced_title_refuted",
    "C57_cell_title_refuted",
    "C57_pass_title_refuted",
    "C57_admonition_title_refuted",
    "C57_table_header_refuted",
    "C57_work_refuted",
    "C57_manpage_name_refuted",
    "C57_manpage_noheader_refuted"
   ],
   "note": "Words are maximal runs of printable ASCII other than space and the five characters HTML escapes (other bytes are covered by C29/C37). Text of a source block with a language is produced by the external highlighter and not covered; an element reference that declares the attribute doctype while the table of contents is rendered is excluded (no parsed title does)."
  },
  {
   "property": "C58",
   "status": "proved",
   "theorems": [
    "C58_no_invented_bytes",
    "C58_nul_refuted"
   ],
   "note": "keeps: what the other packages compute (highlighter, user macros, Sprintf...) keeps to the alphabet."
  },
  {
   "property": "C59",
   "status": "proved",
   "theorems": [
    "C59_element",
    "C59_marks_shown",
    "C59_footnote_shown",
    "C59_section_element",
    "C59_xref_resolved",
    "C59_example",
    "C59_item_id_refuted",
    "C59_fenced_id_refuted",
    "C59_cell_id_refuted",
    "C59_pass_id_refuted",
    "C59_inline_image_id_refuted",
    "C59_verse_refuted",
    "C59_capital_id_refuted",
    "C59_capital_section"
   ],
   "note": "All ids, links, sources, cross references and footnote anchors are written in the output as quoted attributes; the elements whose ids are lost are shown by _refuted counterexamples."
  },
  {
   "property": "C60",
   "status": "proved",
   "theorems": [
    "C60_toc_shown",
    "C60_toc_in_preamble",
    "C60_entry_reaches_section",
    "C60_placements",
    "C60_example",
    "C60_preamble_example",
    "C60_no_preamble_refuted",
    "C60_placement_refuted"
   ],
   "note": "Attributes toc, toc-title and doctype must not be redeclared inside titles (quiet); a preamble placement without a preamble shows nothing and any other placement is an error, both shown."
  },
  {
   "property": "C61",
   "status": "proved",
   "theorems": [
    "C61_parsing_terminates",
    "C61_parsing_deterministic"
   ],
   "note": "For every host, i.e. whatever the Go code of the grammar returns (or panics); the grammar is generated from parser.go. Witnesses: the C62/C63 examples."
  },
  {
   "property": "C62",
   "status": "proved",
   "theorems": [
    "C62_inline_content_always_accepted",
    "C62_included_line_always_accepted",
    "C62_never_half_read",
    "C62_parses_inline",
    "C62_parses_included",
    "C62_parses_raw_line",
    "C62_document_always_accepted_refuted"
   ],
   "note": "The refuted half (whole documents) holds for every host whose unicode tables are right on ASCII and U+00A0."
  },
  {
   "property": "C63",
   "status": "proved",
   "theorems": [
    "C63_document_parsing_terminates",
    "C63_fragments_consecutive",
    "C63_parses_document",
    "C63_every_document_read_entirely_refuted",
    "C63_dropping_stops"
   ],
   "note": "A stop without an error before the end is possible, shown by a counterexample for every host and one concrete run."
  },
  {
   "property": "C64",
   "status": "proved",
   "theorems": [
    "C64_ifeval_operators_accepted",
    "C64_ifeval_operators_accepted_refuted"
   ],
   "note": "<= and >= are never recognised: shown for every host."
  },
  {
   "property": "C65",
   "status": "proved",
   "theorems": [
    "C65_block_verbatim",
    "C65_every_block",
    "C65_every_open_block",
    "C65_every_comment_block",
    "C65_every_code_block",
    "C65_lines_do_not_close"
   ],
   "note": "PegBlockSpec.v says what the lines of a block are; C65_block_verbatim: the loop returns exactly that block and goes on at the rest; the C65_every_* theorems: every text after an opening line is such a block. Blocks preceded by block attributes are not covered. A comment block at the very start directly followed by a title or another comment belongs to the header instead (piece_comment)."
  },
  {
   "property": "C66",
   "status": "proved",
   "theorems": [
    "C66_documents_parsed",
    "C66_paragraph_lines",
    "C66_documents_parsed_example",
    "C66_documents_parsed_run"
   ],
   "note": "C66_documents_parsed_example: a document with a paragraph, a listing, a blank line and a comment block meets the hypotheses."
  },
  {
   "property": "C67",
   "status": "proved",
   "theorems": [
    "C67_verbatim_inline",
    "C67_every_text",
    "C67_one_reading",
    "C67_nothing_lost",
    "C67_no_substitution",
    "C67_listing_example",
    "C67_listing_hypotheses",
    "C67_escaped_apostrophe_refuted",
    "C67_big_number_refuted"
   ],
   "note": "Through the whole generated grammar (Peg.v, PegGrammar.v). Two refutations found on the way: \\' before a letter loses its backslash even in verbatim blocks, and \"<\" followed by a number beyond int64 makes the parse fail."
  },
  {
   "property": "C68",
   "status": "proved",
   "theorems": [
    "C68_ordinary_inline",
    "C68_one_reading",
    "C68_paragraph_example",
    "C68_paragraph_hypotheses",
    "C68_apostrophe_refuted",
    "C68_dash_refuted",
    "C68_two_blanks_refuted"
   ],
   "note": "Through the whole generated grammar. What 'ordinary' means is the inductive relation in PegInlineSpec.v (Section Ordinary), stated on characters only. Three refutations (last byte instead of last letter, blanks lost before a dash)."
  },
  {
   "property": "C69",
   "status": "proved",
   "theorems": [
    "C69_converted"
   ],
   "note": "Example: C69_run and C69_hypotheses. Refuted: C69_dropped_refuted, C69_dropped_literal_refuted. Starts from the preprocessed text."
  },
  {
   "property": "C70",
   "status": "proved",
   "theorems": [
    "C70_preprocessed",
    "C70_converted"
   ],
   "note": "Examples: C70_lines_example, C70_lines_run, C70_converted_example. Refuted: C70_declaration_refuted. Values of declarations are plain (none of < > & { [ + \\\\); a region that is left out contains no declaration (it would count, see C09); inclusions and ifeval are not covered."
  },
  {
   "property": "C71",
   "status": "proved",
   "theorems": [
    "C71_converted",
    "C71_total"
   ],
   "note": "Example: C71_run and C71_hypotheses. Starts from the preprocessed text; no document header, no block attributes before a title, and no quotes, references or macros in the titles."
  },
  {
   "property": "C72",
   "status": "proved",
   "theorems": [
    "C72_converted",
    "C72_page",
    "C72_total"
   ],
   "note": "Example: C72_run and C72_hypotheses. Starts from the preprocessed text; no authors, revision, comments or attribute declarations in the header."
  },
  {
   "property": "C73",
   "status": "proved",
   "theorems": [
    "C73_list_parsed",
    "C73_converted",
    "C73_well_formed"
   ],
   "note": "Example: C73_run and C73_hypotheses. Refuted: C73_number_refuted. Lists inside other documents, compound blocks and sections: C69 to C72 (the relation `shown`). Not covered: check boxes, labeled and callout lists, continuations (+), attributes."
  },
  {
   "property": "C74",
   "status": "proved",
   "theorems": [
    "C74_converted",
    "C74_text",
    "C74_hypotheses",
    "C74_run",
    "C74_accent_refuted",
    "C74_comma_refuted"
   ],
   "note": "From the text to the HTML; composed with C69. One plain word first, single blanks between the chunks; nested and double quotes, attributes on quotes and marks inside words are not covered."
  },
  {
   "property": "C75",
   "status": "proved",
   "theorems": [
    "C75_comment",
    "C75_break",
    "C75_admonition",
    "C75_run",
    "C75_runs",
    "C75_hypotheses",
    "C75_break_refuted"
   ],
   "note": "The three elements are new pieces of the documents of C66 and of the relation `shown` of C69, so they are also covered between other elements, in compound blocks and in sections (C69 to C72). Not covered: comments inside paragraphs, comment lines with two colons (they may be read as labeled items), admonition blocks, icons other than text."
  },
  {
   "property": "C76",
   "status": "proved",
   "theorems": [
    "C76_framed",
    "C76_paragraph",
    "C76_source",
    "C76_admonition",
    "C76_list"
   ],
   "note": "At the level of the rendering of elements. Rendering of the content and of the title is a hypothesis (all_rendered). The numbering of the label of an example is C46; here the label is the caption attribute of the block. The options, start and style of lists are excluded (only_frame). Checked examples beside it: C76_hypotheses, C76_source_hypotheses, C76_literal_refuted, C76_quote_paragraph_refuted."
  },
  {
   "property": "C77",
   "status": "proved",
   "theorems": [
    "C77_quoted",
    "C77_link",
    "C77_link_bare",
    "C77_inline_image",
    "C77_image_block",
    "C77_menu",
    "C77_footnote",
    "C77_xref",
    "C77_button"
   ],
   "note": "At the level of the rendering of elements; the rendering of contents, texts and titles is a hypothesis (all_rendered). The source of an image is what C44 describes, escapeString what C28 describes; image blocks with a title have a caption of their own here (C46 for numbered ones). External cross references and icons are not covered. Checked examples beside it: C77_hypotheses, C77_mailto_refuted, C77_link_id_refuted."
  },
  {
   "property": "C78",
   "status": "proved",
   "theorems": [
    "C78_labeled",
    "C78_callouts",
    "C78_item"
   ],
   "note": "For rendered terms and contents given by relations (ItemSpec.v) the HTML is written without the templates; terms must not end with a blank (the code trims it). The C78_horizontal_refuted theorem shows the open row of a horizontal list whose last term has no content: the spec of the horizontal layout says exactly that. Checked examples beside it: C78_hypotheses, C78_horizontal_refuted."
  },
  {
   "property": "C79",
   "status": "proved",
   "theorems": [
    "C79_table"
   ],
   "note": "The cells are rendered by relations (CellSpec.v), the HTML is written without the templates; the columns come from Table.Columns, a parameter here (C33, C34 are about it); a row has at most as many cells as there are columns (C32; C34: otherwise it panics); the table has its own caption or no title (C46 is about numbered captions). The C79_header_refuted theorem shows that a table with only a header is written empty. Checked examples beside it: C79_hypotheses, C79_header_refuted."
  },
  {
   "property": "C80",
   "status": "proved",
   "theorems": [
    "C80_section",
    "C80_preamble",
    "C80_icon",
    "C80_admonition"
   ],
   "note": "Rendered titles and contents are given by relations, the HTML is written without the templates; the path of icon images is a parameter (renderIconPath), and so is strings.ToLower. The C80_icon_refuted theorem shows the stray quote of icon images with empty text and the roles of icons in brackets (for the printing of a list by package fmt, which is a parameter). Checked examples beside it: C80_hypotheses, C80_icon_refuted."
  },
  {
   "property": "C81",
   "status": "proved",
   "theorems": [
    "C81_document"
   ],
   "note": "Rendered elements and footnotes are given by relations (LayoutSpec.v), the page is written without the templates; the plain text of the title and the names of the authors in the head are those of renderPlainText and renderAuthors; documents without table of contents (C60) and other than manpages (C40). Checked examples beside it: C81_hypotheses."
  }
 ]
}
