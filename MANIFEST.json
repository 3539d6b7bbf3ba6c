{
 "claims": [
  {
   "property": "C01",
   "status": "proved",
   "theorems": [
    "C01_active_document",
    "C01_active_document_with_discard"
   ],
   "note": "Disciplined delivery histories, also interleaved with discard_before; presented = resolved begin/end of the documents."
  },
  {
   "property": "C02",
   "status": "proved",
   "theorems": [
    "C02_in_order_never_fails"
   ],
   "note": "Instance of the discipline; any begin times."
  },
  {
   "property": "C03",
   "status": "proved",
   "theorems": [
    "C03_out_of_order_poison",
    "C03_open_ended_late_document"
   ],
   "note": "Witness histories (ValueError, TypeError); complementary universal claim is C01."
  },
  {
   "property": "C04",
   "status": "proved",
   "theorems": [
    "C04_superseded_untouched",
    "C04_superseded_iff"
   ],
   "note": "First theorem holds in every state; second characterises when a document is superseded, over disciplined histories."
  },
  {
   "property": "C05",
   "status": "proved",
   "theorems": [
    "C05_numbers_unique",
    "C05_collision_rejected"
   ],
   "note": "Invariant over every list of public calls, failing or not."
  },
  {
   "property": "C06",
   "status": "proved",
   "theorems": [
    "C06_authors_group_fixed",
    "C06_accepted_compatible",
    "C06_identity_fixed"
   ],
   "note": "Invariant over every list of public calls."
  },
  {
   "property": "C07",
   "status": "proved",
   "theorems": [
    "C07_fresh_numbers",
    "C07_counter_monotone"
   ],
   "note": "Over every interleaving of add_document, new_document, discard_before and extract_segment."
  },
  {
   "property": "C08",
   "status": "proved",
   "theorems": [
    "C08_lookup_exact"
   ],
   "note": "Consistent state = reached by a disciplined history with forgetting; begin bound not after end bound."
  },
  {
   "property": "C09",
   "status": "proved",
   "theorems": [
    "C09_discard_before"
   ],
   "note": "For every document that is scheduled (not superseded)."
  },
  {
   "property": "C10",
   "status": "proved",
   "theorems": [
    "C10_windows_tile"
   ],
   "note": "Windows handed to the documents; the splice of their content is C31/C33."
  },
  {
   "property": "C11",
   "status": "proved",
   "theorems": [
    "C11_context_restored",
    "C11_context_restored_body",
    "C11_never_fails",
    "C11_siblings_independent"
   ],
   "note": "Every element tree and every initial context; sibling independence as its own theorem."
  },
  {
   "property": "C12",
   "status": "proved",
   "theorems": [
    "C12_compositional",
    "C12_unique",
    "C12_no_body",
    "C12_element"
   ],
   "note": "Validation result = the unique solution of the compositional semantics (TimingSpec.timed_body); for elements in any context as well."
  },
  {
   "property": "C13",
   "status": "proved",
   "theorems": [
    "C13_explicit_end_bounds",
    "C13_body_end_bounds",
    "C13_badly_timed_body_endless"
   ],
   "note": "The body is bounded by end and dur together; a badly timed body is the stated exception (C13_badly_timed_body_endless)."
  },
  {
   "property": "C14",
   "status": "proved",
   "theorems": [
    "C14_not_before_available",
    "C14_badly_timed_body_before_available"
   ],
   "note": "For non-negative attribute values (what parsing yields); the exception for a badly timed body is shown to be real."
  },
  {
   "property": "C15",
   "status": "proved",
   "theorems": [
    "C15_zero_is_absent",
    "C15_zero_end_unbounded",
    "C15_zero_end_after_begin_differs"
   ],
   "note": "Holds unless dropping the attribute would stop an element being badly timed; that case is shown to differ."
  },
  {
   "property": "C16",
   "status": "proved",
   "theorems": [
    "C16_roundtrip",
    "C16_exact",
    "C16_legal",
    "C16_accepts",
    "C16_submillisecond",
    "C16_large_inexact"
   ],
   "note": "Round trip and legality for zero and for durations of at least 1 ms; millisecond counts above 2^53 and durations under 1 ms (and negative ones) are proved to violate the statement (C16_large_inexact, C16_submillisecond)."
  },
  {
   "property": "C17",
   "status": "proved",
   "theorems": [
    "C17_full_roundtrip",
    "C17_full_legal",
    "C17_limited_roundtrip",
    "C17_limited_overflow",
    "C17_accepts",
    "C17_limited_is_full"
   ],
   "note": "All durations in the range of timedelta; overflow is exactly 100 hours; parser accepts exactly the grammar of the schema."
  },
  {
   "property": "C18",
   "status": "proved",
   "theorems": [
    "C18_limited",
    "C18_full_below_100h",
    "C18_author_values",
    "C18_timecount_wrong",
    "C18_full_wrong",
    "C18_leap_second_wrong",
    "C18_timecount_document"
   ],
   "note": "Positive for limited clock (toolkit-made and author-written without leap second) and full clock below 100 h; negative witnesses for timecount, full clock and leap seconds."
  },
  {
   "property": "C19",
   "status": "proved",
   "theorems": [
    "C19_shift",
    "C19_shift_available",
    "C19_near",
    "C19_decision",
    "C19_no_assertion",
    "C19_structure",
    "C19_below_begin",
    "C19_below_body",
    "C19_succeeds",
    "C19_other_base",
    "C19_dur_wrong",
    "C19_zero_end_wrong"
   ],
   "note": "Delay cut to milliseconds as the code does; body dur and zero end attributes excluded, with witnesses that they break the shift (C19_dur_wrong, C19_zero_end_wrong); times below a millisecond: C19_near; later availability: C19_shift_available."
  },
  {
   "property": "C20",
   "status": "proved",
   "theorems": [
    "C20_exact",
    "C20_total",
    "C20_once",
    "C20_memory",
    "C20_first",
    "C20_independent"
   ],
   "note": "All histories over any sequences; also that a repeated acceptance needs 100 acceptances of that sequence in between."
  },
  {
   "property": "C21",
   "status": "proved",
   "theorems": [
    "C21_limit",
    "C21_reaction",
    "C21_home",
    "C21_emitted",
    "C21_harmless",
    "C21_foreign_twice",
    "C21_messages",
    "C21_encoder"
   ],
   "note": "limit_sequence_to_one by itself, retiming, de-duplicating and encoding nodes. What is sent is unaffected by foreign documents (C21_harmless); the rejection of a foreign document that comes twice is silent (C21_foreign_twice)."
  },
  {
   "property": "C22",
   "status": "proved",
   "theorems": [
    "C22_gapless",
    "C22_source",
    "C22_messages"
   ],
   "note": "All histories, including the ones with exceptions."
  },
  {
   "property": "C23",
   "status": "proved",
   "theorems": [
    "C23_admission",
    "C23_rule",
    "C23_switch",
    "C23_token_may_fall",
    "C23_turned_away",
    "C23_empty_group"
   ],
   "note": "The rule, when documents are refused, and that switching needs a strictly higher token; witnesses: the token of the selected sequence may fall, documents turned away are never reconsidered, empty authors group."
  },
  {
   "property": "C24",
   "status": "proved",
   "theorems": [
    "C24_tiling",
    "C24_before",
    "C24_failed",
    "C24_foreign",
    "C24_duplicate",
    "C24_live",
    "C24_content"
   ],
   "note": "Tiling for every history. Liveness and content (C24_live, C24_content) for well-behaved streams; splicing itself is an oracle here."
  },
  {
   "property": "C25",
   "status": "proved",
   "theorems": [
    "C25_ring",
    "C25_ring_from",
    "C25_ring_silent",
    "C25_unbounded_wrong",
    "C25_unbounded_loses",
    "C25_files",
    "C25_delete_all",
    "C25_delete_fails",
    "C25_oserror",
    "C25_async_buffer",
    "C25_async_safe",
    "C25_async_pending",
    "C25_async_done",
    "C25_async_ends",
    "C25_thread_dies"
   ],
   "note": "Ring buffer, rotating file buffer (synchronous and asynchronous, every interleaving of the deleting thread); witnesses for maxlen None/0 and for OSError on deletion."
  },
  {
   "property": "C26",
   "status": "proved",
   "theorems": [
    "C26_roundtrip",
    "C26_exact",
    "C26_injective"
   ],
   "note": "All timedeltas, negative ones included."
  },
  {
   "property": "C27",
   "status": "proved",
   "theorems": [
    "C27_replay",
    "C27_names",
    "C27_clean",
    "C27_comma",
    "C27_one_manifest",
    "C27_files",
    "C27_listed",
    "C27_clock_kept",
    "C27_clock_remembered",
    "C27_numbering",
    "C27_tail",
    "C27_unicode",
    "C27_rotation",
    "C27_rotated",
    "C27_only_rotated",
    "C27_clash",
    "C27_restart"
   ],
   "note": "For identifiers without commas and for ASCII content; witnesses for commas, for non-ASCII text, for clashing names and for restarts; rotation of the files and tailing readers included."
  },
  {
   "property": "C28",
   "status": "proved",
   "theorems": [
    "C28_terminates",
    "C28_succeeds",
    "C28_list",
    "C28_errors",
    "C28_history",
    "C28_element"
   ],
   "note": "Any style table, any calls before (locks and cached lists included)."
  },
  {
   "property": "C29",
   "status": "proved",
   "theorems": [
    "C29_resolve",
    "C29_step",
    "C29_computed",
    "C29_not_inherited",
    "C29_specified",
    "C29_every",
    "C29_line_height"
   ],
   "note": "Whole documents: resolved styles, the three attributes that are not inherited, the ten that are, and line height. A value from the region of an ancestor comes before one from the element's own region, as the code has it (C29_case)."
  },
  {
   "property": "C30",
   "status": "proved",
   "theorems": [
    "C30_sizes",
    "C30_product",
    "C30_region",
    "C30_no_regions",
    "C30_extent",
    "C30_region_lost"
   ],
   "note": "Over exact rationals; C30_product needs that no element with a region and a percentage stands below percentages not yet settled by a region, p or span: without that it is false (C30_region_lost). The code computes in floats and keeps 12 digits."
  },
  {
   "property": "C31",
   "status": "proved",
   "theorems": [
    "C31_same_presentation",
    "C31_same_presentation_ms",
    "C31_succeeds",
    "C31_text_beside_timed_span",
    "C31_badly_timed_shown",
    "C31_first_millisecond",
    "C31_hundred_hours",
    "C31_needs_head",
    "C31_needs_overlap",
    "C31_idle_div_fails",
    "C31_nested_region_fails",
    "C31_endless_fails",
    "C31_made",
    "C31_no_empty"
   ],
   "note": "The instants are compared in whole milliseconds (C31_same_presentation_ms), or at the last microsecond of the millisecond for arbitrary times; presentable states the conditions on the document, each of which a witness shows to be needed."
  },
  {
   "property": "C32",
   "status": "proved",
   "theorems": [
    "C32_match",
    "C32_injective",
    "C32_shape",
    "C32_register",
    "C32_join"
   ],
   "note": "For the mapping itself and for registering the joined documents; the segmenter applies it to every copied element (C31)."
  },
  {
   "property": "C33",
   "status": "proved",
   "theorems": [
    "C33_fails",
    "C33_content",
    "C33_content_ids",
    "C33_presentation",
    "C33_unique",
    "C33_same_head",
    "C33_same_styles",
    "C33_segments",
    "C33_segments_show",
    "C33_body_times_lost",
    "C33_body_style_lost",
    "C33_reference_taken",
    "C33_head_clash",
    "C33_renamed_needlessly"
   ],
   "note": "Content and its identifiers: any documents. Presentation: bodies without times of their own (C33_body_times_lost), as the segmenter makes them. Identifiers of the head and references: documents with identifiers of a number of their own, as the segmenter makes them; without that see C33_reference_taken, C33_head_clash. The style of every body but the first is lost (C33_body_style_lost)."
  },
  {
   "property": "C34",
   "status": "proved",
   "theorems": [
    "C34_meaning",
    "C34_no_twins",
    "C34_no_dangling",
    "C34_specified",
    "C34_fair_exists",
    "C34_reference_lost",
    "C34_index_error",
    "C34_nested_fails",
    "C34_nested_loses",
    "C34_style_reference",
    "C34_non_ascii",
    "C34_foreign_confused"
   ],
   "note": "For every hash without collision on the document, every order of dictionaries and every printing of lists of references (DedupSpec.fair; C34_fair_exists). The unguarded statement is refuted by C34_nested_fails and C34_nested_loses."
  },
  {
   "property": "C35",
   "status": "proved",
   "theorems": [
    "C35_given",
    "C35_accepts",
    "C35_rejects",
    "C35_middle_unchecked",
    "C35_automatic",
    "C35_no_adapter",
    "C35_registry",
    "C35_convert",
    "C35_one",
    "C35_typed",
    "C35_registry_typed",
    "C35_kwargs",
    "C35_reading",
    "C35_there_and_back",
    "C35_message_time_lost",
    "C35_empty_ebuttd"
   ],
   "note": "Acceptance checks the two ends of a given chain only: type-correct chains are accepted (C35_accepts), but the links in the middle are not checked (C35_middle_unchecked). Automatic chains are always type-correct. The XML library is an oracle."
  },
  {
   "property": "C36",
   "status": "proved",
   "theorems": [
    "C36_step",
    "C36_received",
    "C36_others",
    "C36_published",
    "C36_exceptions",
    "C36_channels"
   ],
   "note": "Any schedule of opens, losses, messages, broadcasts and delayed broadcasts, server and client; the two-channel older protocol (C36_channels). A lost connection that was refused raises in the server (C36_exceptions). The WebSocket library below is trusted to send in order while open."
  },
  {
   "property": "C37",
   "status": "proved",
   "theorems": [
    "C37_offset",
    "C37_differences",
    "C37_inverse",
    "C37_bijection",
    "C37_synchronised",
    "C37_last_adjustment",
    "C37_fixed",
    "C37_same_day",
    "C37_midnight",
    "C37_new",
    "C37_get_clock"
   ],
   "note": "Within the range of timedelta. Readings fall back a day at midnight (C37_midnight); fixed time mode included."
  },
  {
   "property": "C38",
   "status": "proved",
   "theorems": [
    "C38_cut",
    "C38_unique",
    "C38_words"
   ],
   "note": "For sentences given as lists of non-empty words without blanks (the tokeniser itself is the natural language library, not modelled); the cutting is unique (C38_unique)."
  },
  {
   "property": "C39",
   "status": "proved",
   "theorems": [
    "C39_media",
    "C39_clock",
    "C39_clock_exact",
    "C39_order",
    "C39_content",
    "C39_succeeds",
    "C39_computed",
    "C39_encoder",
    "C39_body_times_lost",
    "C39_div_times_lost",
    "C39_nested_fails",
    "C39_nested_wrong",
    "C39_nested_elements"
   ],
   "note": "C39_media and C39_clock need that body and div carry no times (C39_body_times_lost, C39_div_times_lost); C39_clock also that timed elements are not nested (C39_nested_fails, C39_nested_wrong). C39_computed ties the times used to the timing pass."
  },
  {
   "property": "C40",
   "status": "proved",
   "theorems": [
    "C40_each",
    "C40_once",
    "C40_verbatim",
    "C40_buffer"
   ],
   "note": "Exactly once within the memory of 100 numbers per sequence (C20); beyond that C40_each."
  },
  {
   "property": "C41",
   "status": "proved",
   "theorems": [
    "C41_found",
    "C41_shifted",
    "C41_gap",
    "C41_bounds",
    "C41_types"
   ],
   "note": "Any number of slots; the node found in the presence of gaps is stated exactly (C41_shifted, C41_gap); node0 gives the last node (C41_bounds)."
  },
  {
   "property": "C42",
   "status": "proved",
   "theorems": [
    "C42_badly_timed_invisible"
   ],
   "note": "Equality of complete results."
  },
  {
   "property": "C43",
   "status": "proved",
   "theorems": [
    "C43_intervals_nest",
    "C43_segment_keeps_ancestors"
   ],
   "note": "For non-negative attribute values; includes the badly timed body."
  },
  {
   "property": "C44",
   "status": "proved",
   "theorems": [
    "C44_clock_exact",
    "C44_clock_near",
    "C44_timecount_exact"
   ],
   "note": "Doubles modelled as exact rationals with round-to-nearest-even; see TimeModel.rnd."
  },
  {
   "property": "C45",
   "status": "proved",
   "theorems": [
    "C45_nearest",
    "C45_own",
    "C45_nested"
   ],
   "note": "The statement needs the condition on nesting: nested regions are not restored (C45_nested)."
  },
  {
   "property": "C46",
   "status": "proved",
   "theorems": [
    "C46_applicable",
    "C46_ancestors",
    "C46_leak"
   ],
   "note": "Includes the styles of the divs before the element, which the code never removes (C46_leak)."
  },
  {
   "property": "C48",
   "status": "proved",
   "theorems": [
    "C48_lookup",
    "C48_touches",
    "C48_once",
    "C48_chronological",
    "C48_ends_before_begin"
   ],
   "note": "C48_lookup is the exact answer without the condition that no element ends before it begins; C48_ends_before_begin shows the condition is needed."
  },
  {
   "property": "C47",
   "status": "proved",
   "theorems": [
    "C47_self_contained",
    "C47_head",
    "C47_unique",
    "C47_same_styles",
    "C47_left_over"
   ],
   "note": "For documents whose recorded styles and regions are those of the style pass (style_checked). Styles left over from earlier divs are kept (C47_left_over)."
  },
  {
   "property": "C49",
   "status": "proved",
   "theorems": [
    "C49_sizes",
    "C49_pass",
    "C49_succeeds",
    "C49_lines",
    "C49_width_lost",
    "C49_line_lost",
    "C49_line_taken"
   ],
   "note": "Height only: the width of a font is lost (C49_width_lost). Line heights need coherence (C49_line_taken) and are lost where the size does not change (C49_line_lost)."
  },
  {
   "property": "C50",
   "status": "proved",
   "theorems": [
    "C50_colours",
    "C50_inherited",
    "C50_plain",
    "C50_references",
    "C50_unique",
    "C50_chain_lost",
    "C50_body_lost",
    "C50_rows_lost"
   ],
   "note": "C50_references holds for all validated documents, C50_unique for all documents; the values need no_chains and plain_body (C50_chain_lost, C50_body_lost); padding and multiRowAlign are dropped (C50_rows_lost)."
  },
  {
   "property": "C51",
   "status": "proved",
   "theorems": [
    "C51_segment_valid",
    "C51_segment",
    "C51_joined",
    "C51_segment_body",
    "C51_segments_joined",
    "C51_nested_region",
    "C51_body_style_lost"
   ],
   "note": "Segments: needs that no region stands below another (C51_nested_region); computed styles agree up to multiRowAlign, which the copy of a style omits. Joining: identifiers of content are not compared (they are renamed), and the bodies must hand down the same style (C51_body_style_lost)."
  },
  {
   "property": "C52",
   "status": "proved",
   "theorems": [
    "C52_extract",
    "C52_resequencer",
    "C52_stream",
    "C52_cuttable",
    "C52_layout_needed",
    "C52_sizes_change",
    "C52_stuck"
   ],
   "note": "C52_extract and C52_resequencer ask that each document used can be cut for its window; C52_stream replaces this by a condition on the documents alone, for which C52_cuttable gives sufficient conditions. All documents must have one extent and cell resolution (C52_sizes_change, C52_stuck) and bodies that hand down the same style; a document without layout is left out (C52_layout_needed)."
  },
  {
   "property": "C53",
   "status": "proved",
   "theorems": [
    "C53_starts",
    "C53_sends",
    "C53_hears",
    "C53_servers",
    "C53_order",
    "C53_second",
    "C53_legacy_output",
    "C53_legacy_input",
    "C53_refusals"
   ],
   "note": "The proxy, url parsing and reasons of the operating system to refuse a port other than its use by this application are not modelled; the port of a url is an arbitrary function."
  },
  {
   "property": "C54",
   "status": "proved",
   "theorems": [
    "C54_direct",
    "C54_separate",
    "C54_fan_out_lost"
   ],
   "note": ""
  },
  {
   "property": "C55",
   "status": "proved",
   "theorems": [
    "C55_chain",
    "C55_mixed_text"
   ],
   "note": "Conditions are on the documents that arrive (encodable). C55_mixed_text shows that text beside spans must be excluded. Not said here: regions and styles of the result (C49, C50)."
  },
  {
   "property": "C56",
   "status": "proved",
   "theorems": [
    "C56_screen",
    "C56_outcomes",
    "C56_lost",
    "C56_text",
    "C56_text_screen"
   ],
   "note": "Conditions: documents arrive before they are over, times below 100 h, no line of white space only. Not said here: regions and styles of the result (C49, C50)."
  },
  {
   "property": "C57",
   "status": "proved",
   "theorems": [
    "C57_order",
    "C57_parse",
    "C57_legal",
    "C57_checked",
    "C57_value",
    "C57_set",
    "C57_delta",
    "C57_delta_dur",
    "C57_ebuttd"
   ],
   "note": "Assumes of PyXB that a union tries its types in order. C57_project_examples: the 49 distinct examples of the feature file that are not skipped agree with the model; the 3 skipped ones are accepted (C57_project_skipped)."
  },
  {
   "property": "C58",
   "status": "proved",
   "theorems": [
    "C58_same",
    "C58_equivalence",
    "C58_white",
    "C58_namespaces",
    "C58_blind",
    "C58_exact",
    "C58_documents",
    "C58_undeclared",
    "C58_prolog",
    "C58_quotes"
   ],
   "note": "The XML parser is an argument, of which C58_undeclared assumes that it refuses a declaration inside an element."
  },
  {
   "property": "C59",
   "status": "proved",
   "theorems": [
    "C59_text",
    "C59_range",
    "C59_fails",
    "C59_document",
    "C59_discarded",
    "C59_quiet",
    "C59_next",
    "C59_lost"
   ],
   "note": "How times are printed is not modelled. C59_lost and C59_next are for a document that is newer and later than all others; C59_quiet is for all histories admitted in C01 and C09."
  },
  {
   "property": "C60",
   "status": "proved",
   "theorems": [
    "C60_roundtrip",
    "C60_way",
    "C60_lost",
    "C60_nodes",
    "C60_settled",
    "C60_lines",
    "C60_unreadable",
    "C60_type",
    "C60_buffers",
    "C60_first",
    "C60_empty"
   ],
   "note": "Characters are the bytes of UTF-8; what PyXB makes of an element as payload is a parameter. Links between nodes carry text, as websocket and filesystem carriages do. C60_way and C60_lost are for messages that were read once and are clean in the sense of MessageSpec; C60_settled covers the others with a text payload."
  },
  {
   "property": "C61",
   "status": "proved",
   "theorems": [
    "C61_starts",
    "C61_checked",
    "C61_exact",
    "C61_undone",
    "C61_undone_far",
    "C61_text",
    "C61_buffers",
    "C61_encoder",
    "C61_default"
   ],
   "note": "Nodes are modelled for a document they accept (not a duplicate, of the right sequence); what they make of its header and content is any function. Assumes that reading gives back what was written; C61_exact also that no text is both Part 3 and EBU-TT-D, and that the sequence identifier is not default. Websocket chains are followed to a connection with the identifier the text is sent under."
  },
  {
   "property": "C62",
   "status": "proved",
   "theorems": [
    "C62_carried",
    "C62_nothing_lost",
    "C62_settles",
    "C62_grows",
    "C62_producer"
   ],
   "note": "PyXB and minidom are modelled as far as white space in text goes, as described in PrintModel; text is bytes, of which space, tab, newline and carriage return are white. Header and metadata are carried as a whole."
  },
  {
   "property": "C63",
   "status": "proved",
   "theorems": [
    "C63_segment",
    "C63_spaced",
    "C63_resegmented",
    "C63_converted",
    "C63_encoded",
    "C63_agents",
    "C63_breaks"
   ],
   "note": "Which elements get into a segment is a parameter, so the theorems hold for whatever C31 selects. An agent attribute is taken as one reference. Documents have a body."
  },
  {
   "property": "C64",
   "status": "proved",
   "theorems": [
    "C64_rules",
    "C64_message",
    "C64_own",
    "C64_welcome",
    "C64_together",
    "C64_gps",
    "C64_resequenced",
    "C64_refusal",
    "C64_stall",
    "C64_rewritten",
    "C64_handover",
    "C64_handed"
   ],
   "note": "Attributes the sequence code does not look at are given per document by a function. Which pieces of a window could be made and whether joining went through are inputs. Errors other than for identifier, clock and authors group (C03) do not count as turning a document away. SMPTE was removed from EBU-TT Part 3 version 1.0; the code still handles it."
  },
  {
   "property": "C65",
   "status": "proved",
   "theorems": [
    "C65_order",
    "C65_instances",
    "C65_refusal",
    "C65_unchecked",
    "C65_validators",
    "C65_leftover",
    "C65_gap",
    "C65_connected",
    "C65_registry",
    "C65_unregistered",
    "C65_orderly",
    "C65_ghost",
    "C65_any"
   ],
   "note": "The order of ancestors, abstract methods and attribute lookup are modelled as Python 2.7 describes them. Bodies are names with a type, ANY, a tuple, None, NotImplemented or an opaque thing; expects and provides are the inherited class methods everywhere. Only refused classes are garbage collected."
  },
  {
   "property": "C66",
   "status": "proved",
   "theorems": [
    "C66_any_order",
    "C66_no_error",
    "C66_harmless",
    "C66_late",
    "C66_open",
    "C66_lost",
    "C66_zero_end"
   ],
   "note": "Discipline is needed only for the claim that no call raises; which calls raise in undisciplined histories beyond the stated ones is not characterised."
  },
  {
   "property": "C67",
   "status": "proved",
   "theorems": [
    "C67_reading",
    "C67_sign",
    "C67_writing",
    "C67_arguments",
    "C67_exact",
    "C67_stable",
    "C67_refused",
    "C67_region",
    "C67_region_again",
    "C67_region_sign",
    "C67_equal",
    "C67_equivalence",
    "C67_not_transitive"
   ],
   "note": "Text is ASCII with white space collapsed. Doubles are neither subnormal nor infinite. The printing of floats is that of CPython 2.7 (twelve significant digits). What != does is left to PyXB and not covered."
  },
  {
   "property": "C68",
   "status": "proved",
   "theorems": [
    "C68_verdict",
    "C68_reason",
    "C68_again",
    "C68_lookup",
    "C68_refused",
    "C68_styles",
    "C68_unused_style",
    "C68_pixel_line_height",
    "C68_half_way",
    "C68_stale",
    "C68_cached"
   ],
   "note": "Syntactic validation by PyXB is taken as passed. Styles are told apart by identifier. The resolution of times and the timeline, which raise nothing, are in C12 and C48."
  },
  {
   "property": "C69",
   "status": "proved",
   "theorems": [
    "C69_address",
    "C69_otherwise",
    "C69_no_other_failure",
    "C69_unique",
    "C69_written",
    "C69_split",
    "C69_agree",
    "C69_colons",
    "C69_connections",
    "C69_bad_option",
    "C69_script"
   ],
   "note": "Texts are bytes. configman (which calls the converter) and autobahn (which uses the proxy of a factory) are not modelled; int() is any function that reads numerals as Python does."
  },
  {
   "property": "C70",
   "status": "proved",
   "theorems": [
    "C70_window",
    "C70_late",
    "C70_exact",
    "C70_over",
    "C70_begin_output",
    "C70_final",
    "C70_content",
    "C70_shows",
    "C70_stops",
    "C70_stops_content",
    "C70_missed",
    "C70_midnight"
   ],
   "note": "Twisted's callLater and LoopingCall are modelled as documented; the clock is not set and the time zone does not change; delays are exact. A call that raises is one that convert_next_segment does not survive."
  },
  {
   "property": "C71",
   "status": "proved",
   "theorems": [
    "C71_silent",
    "C71_lost",
    "C71_files",
    "C71_kept",
    "C71_delayed",
    "C71_connected",
    "C71_never",
    "C71_reading",
    "C71_runs",
    "C71_order"
   ],
   "note": "The nodes are any deterministic machine; C61 has what they do. Websocket outputs have addresses of their own (C53). Delays are not negative; the order of calls due at the same time is not modelled."
  },
  {
   "property": "C72",
   "status": "proved",
   "theorems": [
    "C72_order",
    "C72_defined",
    "C72_none",
    "C72_ttd",
    "C72_message",
    "C72_max",
    "C72_max_mixed",
    "C72_in",
    "C72_sort",
    "C72_sort_mixed",
    "C72_get",
    "C72_get_none",
    "C72_get_never",
    "C72_get_next"
   ],
   "note": "Python 2 rules for operators, max, in and list.sort (as any plan of comparisons that sorts) are modelled. Objects other than documents and messages are taken to have no sequence_identifier and no comparison that answers for documents; in is for an object not itself in the list."
  },
  {
   "property": "C73",
   "status": "proved",
   "theorems": [
    "C73_accepts",
    "C73_nodes",
    "C73_names",
    "C73_names_only",
    "C73_why",
    "C73_backend",
    "C73_once",
    "C73_spoilt",
    "C73_harmless",
    "C73_started",
    "C73_dummy",
    "C73_auto",
    "C73_clock"
   ],
   "note": "configman is taken to convert the names before anything is made and to ignore options a node does not have; options not in the model are as they should be. Whether adapters fit is C35. Python process state is the backend, what is registered with it and the application."
  },
  {
   "property": "C74",
   "status": "proved",
   "theorems": [
    "C74_format",
    "C74_format_error",
    "C74_format_unicode",
    "C74_create",
    "C74_rename",
    "C74_produce",
    "C74_hand_over",
    "C74_segment",
    "C74_carried",
    "C74_file",
    "C74_file_inside",
    "C74_direct",
    "C74_direct_handover",
    "C74_direct_rename",
    "C74_consumer",
    "C74_inside",
    "C74_inside_handover",
    "C74_group"
   ],
   "note": "What str.format does in Python 2.7 with a unicode field, that gettext returns str there, and that toxml returns unicode are taken as given. What a node does besides (seen before, emitted, numbers, validateBinding) is any oracle; the other models have it. Message, distributing and EBU-TT-D nodes are not in this model."
  },
  {
   "property": "C75",
   "status": "proved",
   "theorems": [
    "C75_reload",
    "C75_numbered",
    "C75_sent",
    "C75_missing",
    "C75_again",
    "C75_made",
    "C75_never_scheduled",
    "C75_scheduled_silent",
    "C75_reset",
    "C75_options",
    "C75_keys",
    "C75_enter",
    "C75_freeze",
    "C75_lines",
    "C75_lines_exceeded",
    "C75_text",
    "C75_via",
    "C75_retry",
    "C75_misdirected",
    "C75_feed",
    "C75_on_air"
   ],
   "note": "Handlers run one after the other, as in a browser. Typing is at the end of the text, without pasting; the limit is an integer or empty; the identifier __proto__ and a second click on Connect while connecting are left out. The time of scheduled documents is not modelled: none is ever scheduled."
  },
  {
   "property": "C76",
   "status": "proved",
   "theorems": [
    "C76_grows",
    "C76_opened",
    "C76_never_less",
    "C76_stopped",
    "C76_interval",
    "C76_bound",
    "C76_media",
    "C76_ahead"
   ],
   "note": "A browser is taken to fire timers of 500 ms once in half a second; what browsers do to pages in the background is not modelled. format of moment.js is taken as given. Offsets of zones are taken to be whole seconds where C76_media says so."
  },
  {
   "property": "C77",
   "status": "proved",
   "theorems": [
    "C77_written",
    "C77_read",
    "C77_refused",
    "C77_tab",
    "C77_sent",
    "C77_lost",
    "C77_misdirected"
   ],
   "note": "Reading is that of MessageModel (C60). What is read when a value has markup is not modelled. Characters are bytes of UTF-8."
  },
  {
   "property": "C78",
   "status": "proved",
   "theorems": [
    "C78_buttons",
    "C78_start",
    "C78_goes_on",
    "C78_ends",
    "C78_other_mode",
    "C78_ticks",
    "C78_positive"
   ],
   "note": "Whole milliseconds and the shortest period of browsers are not modelled, nor is Infinity as an entry. What is made and sent each time is C75 (Tick)."
  },
  {
   "property": "C79",
   "status": "proved",
   "theorems": [
    "C79_arrives",
    "C79_dots",
    "C79_distinct",
    "C79_plain",
    "C79_published",
    "C79_dropped",
    "C79_subscribed"
   ],
   "note": "Characters are bytes of UTF-8. Of hyperlink it is assumed, without its source at hand, that it splits the path at slashes and decodes each segment; of the browser, that it removes segments of dots as the URL standard says. The host entered is taken to have no path."
  }
 ]
}