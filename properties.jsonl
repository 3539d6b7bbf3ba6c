{"id": "C01", "title": "At any instant the sequence activates exactly the newest document that has begun", "statement": "After any delivery history of well-formed documents in which every document that arrives late (with a lower sequence number than something already in the sequence) ends strictly before the next higher-numbered document begins, the document the sequence resolves as active at time t is the highest-numbered delivered document whose computed begin is <= t, provided t is before that document's computed end; otherwise nothing is active. In particular at most one document is active at any time.", "quantifier": "all finite delivery histories (lists of documents with arbitrary sequence numbers, begin times and optional end times) satisfying the stated delivery discipline, and all instants t", "why_tests_cant": "The result depends on the whole history of inserts, trims, overrides and discards at every instant of an unbounded time axis; the BDD scenarios fix three documents.", "anchors": ["ebu_tt_live/documents/ebutt3.py: EBUTT3DocumentSequence.add_document, _insert_or_discard, _override_sequence, resolved_begin_time, resolved_end_time"]}
{"id": "C02", "title": "In-order delivery never fails", "statement": "If documents are delivered in strictly increasing sequence-number order, each with an end no earlier than its begin (or no end), and they are compatible with the sequence, then add_document never raises, whatever their begin times.", "quantifier": "all in-order delivery histories of well-formed documents", "why_tests_cant": "Failure arises from accumulated timeline state (duplicate or misplaced events); tests run short fixed histories.", "anchors": ["ebu_tt_live/documents/ebutt3.py: add_document, _insert_or_discard, _override_sequence"]}
{"id": "C03", "title": "Out-of-order delivery can poison the sequence", "statement": "There are delivery histories of well-formed, compatible documents with distinct sequence numbers in which a late document is accepted and a subsequent, perfectly ordinary document makes add_document raise an internal-inconsistency ValueError: the in-order restriction of C02 cannot be dropped, not even for three documents.", "quantifier": "existence over delivery histories, with the exact discipline of C01 as the complementary universal claim", "why_tests_cant": "A test can show one failing history, but only the pair (universal guard theorem, witness) shows where the boundary lies.", "anchors": ["ebu_tt_live/documents/ebutt3.py: _insert_or_discard (backward loop, second End event), timeline insertion order of equal keys"]}
{"id": "C04", "title": "A late document that is already overridden leaves the sequence untouched", "statement": "Whenever add_document decides a document is already superseded, the set of stored documents and every resolved begin/end time of the other documents are unchanged, and the superseded document itself reports a resolved end no later than its resolved begin.", "quantifier": "all sequence states reachable by delivery histories, all late documents", "why_tests_cant": "Needs the state after every possible history.", "anchors": ["ebu_tt_live/documents/ebutt3.py: add_document, EBUTT3Document.discard_document"]}
{"id": "C05", "title": "Sequence numbers stay unique", "statement": "After any history of add_document calls, successful or failing, no two stored documents have the same sequence number, and a document whose number is already stored is rejected with the sequence unchanged.", "quantifier": "all histories of add_document calls, including failing ones", "why_tests_cant": "Uniqueness is an invariant over unbounded histories.", "anchors": ["ebu_tt_live/documents/ebutt3.py: _check_document_compatibility, add_document"]}
{"id": "C06", "title": "The authors group of a sequence never changes once known", "statement": "Once a sequence has an authors group identifier it never changes, and every document accepted later either carries no authors group, an empty one, or exactly that identifier; incompatible sequence identifier, time base or clock mode are never accepted.", "quantifier": "all sequence states and all documents, all histories", "why_tests_cant": "Invariant over all histories and all identifier values.", "anchors": ["ebu_tt_live/documents/ebutt3.py: _check_document_compatibility"]}
{"id": "C07", "title": "New documents get fresh, increasing sequence numbers", "statement": "The counter reported as the last sequence number never decreases, is at least every number ever accepted, and every document created by new_document carries a number strictly greater than all numbers accepted or created before it.", "quantifier": "all interleavings of add_document and new_document", "why_tests_cant": "Needs all interleavings of producing and consuming on the same sequence.", "anchors": ["ebu_tt_live/documents/ebutt3.py: new_document, add_document, last_sequence_number"]}
{"id": "C08", "title": "Range lookup returns exactly the documents active in the range, in order", "statement": "For a sequence in a consistent state, lookup_range_on_timeline(begin,end) returns exactly those documents whose resolved interval starts before end and ends after begin, each once, in order of resolved begin.", "quantifier": "all consistent timelines, all begin and end bounds (each possibly missing)", "why_tests_cant": "Boundary behaviour for every overlap configuration cannot be enumerated.", "anchors": ["ebu_tt_live/documents/ebutt3.py: TimelineUtilMixin.lookup_range_on_timeline"]}
{"id": "C09", "title": "Discarding old documents does not disturb the present", "statement": "discard_before(document) on a consistent sequence keeps that document and all later ones with their resolved times unchanged, removes every earlier document, and therefore leaves what is active at any t >= the document's resolved begin unchanged.", "quantifier": "all consistent sequences and all members", "why_tests_cant": "Needs all reachable states.", "anchors": ["ebu_tt_live/documents/ebutt3.py: discard_before"]}
{"id": "C10", "title": "Segment extraction partitions the requested window", "statement": "When a window is extracted from a consistent sequence, the sub-windows requested from the affected documents are in chronological order, do not overlap, lie inside the requested window, and every instant of the window at which some document is active falls into that document's sub-window.", "quantifier": "all consistent sequences and all windows", "why_tests_cant": "Quantifies over all instants of all windows.", "anchors": ["ebu_tt_live/documents/ebutt3.py: EBUTT3DocumentSequence.extract_segment"]}
{"id": "C11", "title": "Timing validation is balanced and never hits its internal sanity error", "statement": "For every document tree, the timing pass leaves its shared context (sync base and begin/end stacks) exactly as it found it, so sibling order never influences a computed time through leaked context, and the LogicError sanity check is never triggered.", "quantifier": "all element trees with arbitrary optional begin/end/dur attributes, all initial contexts", "why_tests_cant": "Trees are unbounded in depth and width.", "anchors": ["ebu_tt_live/bindings/validation/timing.py: TimingValidationMixin._semantic_preprocess_timing, _semantic_postprocess_timing, BodyTimingValidationMixin"]}
{"id": "C12", "title": "Computed times follow the compositional timing semantics", "statement": "The computed begin and end that validation assigns to every element equal those of a context-free recursive definition: sync base = sum of ancestors' begins, end = own end relative to the sync base clipped by the nearest ancestor end, else latest child end (undefined if any child is undefined), else the inherited end; begin = max(sync base, availability), moved to the earliest child when the element declares no begin.", "quantifier": "all element trees, availability times and time values", "why_tests_cant": "Refinement between the stack-based traversal and a compositional definition over all trees.", "anchors": ["ebu_tt_live/bindings/validation/timing.py: _pre_calculate_end, _pre_calculate_begin, _post_calculate_begin, _semantic_postprocess_timing", "ebu_tt_live/bindings/validation/base.py"]}
{"id": "C13", "title": "An explicit end bounds everything inside the element", "statement": "If an element has an explicit non-zero end, every descendant has a defined computed end, no later than that element's computed end.", "quantifier": "all trees and all ancestor/descendant pairs", "why_tests_cant": "Unbounded depth.", "anchors": ["ebu_tt_live/bindings/validation/timing.py: _pre_calculate_end, _semantic_postprocess_timing"]}
{"id": "C14", "title": "Nothing is presented before the document is available", "statement": "No element's computed begin precedes the availability time of the document, except for the body of a document whose body end does not follow its begin.", "quantifier": "all trees and availability times", "why_tests_cant": "Unbounded trees.", "anchors": ["ebu_tt_live/bindings/validation/timing.py: _pre_assign_begin, _post_calculate_begin"]}
{"id": "C15", "title": "Zero times are treated as unspecified", "statement": "An element whose begin or end evaluates to exactly zero gets the same computed times as if the attribute were absent: in particular end=0 does not bound the element. Characterises a deviation of the code from the declared timing semantics.", "quantifier": "all trees", "why_tests_cant": "The claim is an equivalence over all documents, not a single case.", "anchors": ["ebu_tt_live/bindings/validation/timing.py: _pre_init_variables"]}
{"id": "C16", "title": "Timecount values round-trip to the millisecond", "statement": "For every non-negative duration, formatting it as a timecount value and parsing it back yields the duration truncated to whole milliseconds; whole-millisecond durations round-trip exactly, and the text is always in the legal timecount lexical space.", "quantifier": "all non-negative durations", "why_tests_cant": "Infinite domain and five unit branches.", "anchors": ["ebu_tt_live/bindings/_ebuttdt.py: TimecountTimingType.from_timedelta, as_timedelta"]}
{"id": "C17", "title": "Clock values round-trip to the millisecond", "statement": "For every non-negative duration, the full-clock text parses back to the duration truncated to milliseconds; the same for limited-clock up to 99h59m59.999s, and any duration of 100 hours or more is rejected with an overflow error rather than producing a wrong value.", "quantifier": "all non-negative durations", "why_tests_cant": "Infinite domain; carries across hours, minutes, seconds.", "anchors": ["ebu_tt_live/bindings/_ebuttdt.py: FullClockTimingType, LimitedClockTimingType, _get_time_members"]}
{"id": "C18", "title": "Textual comparison of limited-clock values is numeric comparison", "statement": "For values produced by the toolkit in limited-clock form, the string comparison used to detect elements that end before they begin agrees with numeric comparison; for full-clock and timecount values it does not (there are correctly timed elements that are treated as ending before they begin).", "quantifier": "all pairs of limited-clock values; existence for the other types", "why_tests_cant": "Quantifies over all pairs of times.", "anchors": ["ebu_tt_live/bindings/validation/timing.py: _element_badly_timed", "ebu_tt_live/bindings/_ebuttdt.py: LimitedClockTimingType.from_timedelta"]}
{"id": "C19", "title": "Retiming delays every leaf by exactly the configured delay", "statement": "For a document available from time zero, with no body duration attribute, no zero end attribute and times in whole milliseconds, the retiming node (when it does not overflow the time format) shifts the computed begin and (if defined) end of every content leaf by exactly the configured delay (cut to milliseconds), and touches nothing else. Both excluded attribute cases really break it. When the document becomes available later, ends still shift exactly and begins shift exactly unless held back by availability.", "quantifier": "all document trees, all non-negative delays, both supported time bases", "why_tests_cant": "Unbounded trees; depends on where the first timed ancestor sits on each path.", "anchors": ["ebu_tt_live/node/delay.py: RetimingDelayNode.process_document, update_children_timing, update_body_timing, has_a_leaf_with_no_timing_path"]}
{"id": "C20", "title": "A node processes each document at most once within its memory", "statement": "check_if_document_seen answers 'new' for a (sequence, number) pair exactly when that pair is not among the last 100 distinct numbers accepted for that sequence; different sequences never interfere.", "quantifier": "all input histories over any number of sequences", "why_tests_cant": "Unbounded histories; eviction only shows after 100 documents.", "anchors": ["ebu_tt_live/node/base.py: AbstractConsumerNode.check_if_document_seen", "ebu_tt_live/utils.py: RingBufferWithCallback"]}
{"id": "C21", "title": "A single-sequence node locks on to the first sequence it sees", "statement": "After the first document, every document of any other sequence is rejected and does not alter the node; documents of the first sequence are never rejected for that reason.", "quantifier": "all input histories", "why_tests_cant": "All histories.", "anchors": ["ebu_tt_live/node/base.py: AbstractConsumerNode.limit_sequence_to_one"]}
{"id": "C22", "title": "The handover node's output is one gap-free sequence", "statement": "Whatever documents and control messages arrive, the documents emitted carry the configured output sequence identifier and sequence numbers 1,2,3,... without gap or repetition, and each records the sequence it was selected from.", "quantifier": "all input histories (documents, duplicates, foreign groups, messages)", "why_tests_cant": "All histories.", "anchors": ["ebu_tt_live/node/handover.py: HandoverNode.process_document"]}
{"id": "C23", "title": "Handover switches input exactly on a higher token", "statement": "The emitted documents are exactly those chosen by the priority rule: a new document of the configured authors group with a control token is emitted iff it belongs to the currently selected sequence or its token exceeds the token of the last emitted document (or nothing has been emitted); the selected sequence changes only on such a strictly higher token.", "quantifier": "all input histories", "why_tests_cant": "Refinement over all histories.", "anchors": ["ebu_tt_live/node/handover.py: HandoverNode.process_document"]}
{"id": "C24", "title": "Re-sequencing produces contiguous, consecutively numbered segments", "statement": "For any interleaving of incoming documents and segmentation ticks, the emitted segments are numbered 1,2,3,... and their windows tile the time axis from the start time with the configured length, with no gap or overlap; ticks before any sequence exists emit nothing and do not advance.", "quantifier": "all interleavings of documents and ticks", "why_tests_cant": "All schedules.", "anchors": ["ebu_tt_live/node/consumer.py: ReSequencer.convert_next_segment, get_segment, SimpleConsumer.process_document"]}
{"id": "C25", "title": "The ring buffer keeps the newest items and hands out the rest in order", "statement": "For any sequence of appends to a ring buffer of capacity n>0, the buffer holds the last n items and the eviction callback has been called exactly once for every older item, oldest first; nothing is lost or duplicated.", "quantifier": "all append histories and all capacities", "why_tests_cant": "Unbounded histories and capacities.", "anchors": ["ebu_tt_live/utils.py: RingBufferWithCallback, RotatingFileBuffer"]}
{"id": "C26", "title": "Manifest times round-trip to the millisecond", "statement": "Writing any availability time to a manifest line and reading it back yields that time truncated to milliseconds (also for negative times).", "quantifier": "all timedeltas", "why_tests_cant": "Infinite domain.", "anchors": ["ebu_tt_live/carriage/filesystem.py: timedelta_to_str_manifest, timestr_manifest_to_timedelta"]}
{"id": "C27", "title": "A manifest replays what was written, in order", "statement": "Reading the manifest written for a list of documents yields the same file names in the same order with times truncated to milliseconds, provided no file name contains a comma; a comma in the sequence identifier makes the reader fail.", "quantifier": "all lists of written documents", "why_tests_cant": "All lists and all file names.", "anchors": ["ebu_tt_live/carriage/filesystem.py: FilesystemProducerImpl, FilesystemReader"]}
{"id": "C28", "title": "Style reference resolution terminates and detects every cycle and dangling reference", "statement": "Resolving the styles of any style, over any finite style table, terminates; it succeeds exactly when no reference cycle and no unknown identifier is reachable, and then returns each reachable style exactly once, every style before the styles it references unless already listed.", "quantifier": "all finite style tables and all starting styles", "why_tests_cant": "All reference graphs.", "anchors": ["ebu_tt_live/bindings/__init__.py: style_type.ordered_styles", "ebu_tt_live/bindings/validation/presentation.py"]}
{"id": "C29", "title": "The nearest style specifying an attribute wins", "statement": "The resolved value of each style attribute is the value in the first style, in resolution order, that specifies it; inheritance and initial values are only used when none does.", "quantifier": "all style lists, attributes and inherited styles", "why_tests_cant": "All style combinations.", "anchors": ["ebu_tt_live/bindings/__init__.py: style_type.resolve_styles, add, compute_style"]}
{"id": "C30", "title": "Relative font sizes multiply through", "statement": "Percentage font sizes computed through any nesting of elements equal the absolute size at the root scaled by the product of percentages, per axis, with one-dimensional sizes applying to both axes.", "quantifier": "all nesting depths and sizes (over exact rationals)", "why_tests_cant": "Unbounded nesting.", "anchors": ["ebu_tt_live/bindings/_ebuttdt.py: PercentageFontSizeType.do_mul, CellFontSizeType", "ebu_tt_live/bindings/__init__.py: compute_font_size"]}
{"id": "C31", "title": "Segmenting a document preserves its presentation", "statement": "For every instant inside the segment window, the leaves active in the segment are exactly the leaves active in the original at that instant, with the same content; outside the window the segment presents nothing.", "quantifier": "all document trees, windows and instants", "why_tests_cant": "All trees x windows x instants.", "anchors": ["ebu_tt_live/documents/ebutt3_segmentation.py: EBUTT3Segmenter", "ebu_tt_live/bindings/validation/timing.py: _semantic_copy_apply_leaf_timing, is_in_segment"]}
{"id": "C32", "title": "Identifier prefixes cannot clash between documents", "statement": "Prefixing identifiers with the sequence number maps distinct (sequence number, identifier) pairs to distinct identifiers, so segments of different documents never share an identifier.", "quantifier": "all sequence numbers and identifiers", "why_tests_cant": "Infinite domain of strings.", "anchors": ["ebu_tt_live/bindings/validation/base.py: IDMixin.deconflict_id"]}
{"id": "C33", "title": "Splicing keeps content, identifiers, references and timing of segments", "statement": "Splicing documents yields a document with the content of all of them in order, in which no identifier of the content is there twice; for segments of documents with different sequence numbers no identifier at all is there twice, every style and region reference denotes what it denoted in its segment, and at every instant exactly that is shown which the original documents show inside the windows they were cut at.", "quantifier": "all lists of documents; all lists of segments of validated documents", "why_tests_cant": "All lists and identifier choices.", "anchors": ["ebu_tt_live/documents/ebutt3_splicer.py: EBUTT3Splicer", "ebu_tt_live/bindings/__init__.py: body_type.merge, styling.merge, layout.merge"]}
{"id": "C34", "title": "De-duplication preserves what every reference means", "statement": "After de-duplication every style and region reference denotes an element with the same attribute values as before, the style specified for every element is the same, no two remaining styles have identical attributes, and no reference dangles, for documents whose styles do not reference other styles, whose attribute values cannot be confused when joined, and in which no list of references repeats a style inside a repetition of another; a document breaking the last condition raises or loses a reference.", "quantifier": "all documents with flat styles", "why_tests_cant": "All documents, all attribute values, all hash functions without collision on the document and all dictionary orders.", "anchors": ["ebu_tt_live/node/deduplicator.py"]}
{"id": "C35", "title": "Adapter chains are type-correct or rejected", "statement": "A chain of data adapters is accepted exactly when each provides what the next expects, from the node/carriage's type at one end to that at the other; a conversion through an accepted chain applies every adapter once, in order, and passes keyword arguments along.", "quantifier": "all adapter lists and data types", "why_tests_cant": "All chains.", "anchors": ["ebu_tt_live/adapters/node_carriage.py", "ebu_tt_live/adapters/base.py"]}
{"id": "C36", "title": "A subscriber receives exactly its sequence's messages while connected", "statement": "For any schedule of connects, disconnects and broadcasts, a subscriber receives exactly the messages broadcast for its sequence identifier between its registration and its disconnection, in order, each once.", "quantifier": "all schedules of any number of connections", "why_tests_cant": "All interleavings.", "anchors": ["ebu_tt_live/twisted/websocket.py: TwistedWSPushProducer, BroadcastServerProtocol, BroadcastServerFactory"]}
{"id": "C37", "title": "Media clock conversion is an order-preserving bijection", "statement": "The media clock maps reference-clock times to media times by a fixed offset: it preserves differences and order and is invertible once synchronised.", "quantifier": "all clock readings and synchronisation points", "why_tests_cant": "Infinite domain.", "anchors": ["ebu_tt_live/clocks/media.py", "ebu_tt_live/clocks/base.py"]}
{"id": "C38", "title": "Tokenising text into subtitles loses no words", "statement": "Splitting a document into subtitle lines keeps all words in order, puts at most two lines in a subtitle and no line exceeds 38 characters unless it is a single longer word.", "quantifier": "all lists of sentences and words", "why_tests_cant": "All texts.", "anchors": ["ebu_tt_live/utils.py: tokenize_english_document"]}
{"id": "C39", "title": "Conversion to EBU-TT-D preserves timing", "statement": "When a document whose times are on p and span elements is converted to EBU-TT-D, every piece of text is presented at the same times if the time base is media, and, if the time base is clock and no timed element is inside a timed element, at the times moved by the difference between the clocks to the millisecond below, so order is kept and durations too up to a millisecond (exactly for whole milliseconds). Text, structure, identifiers and regions are kept in order. Conversion fails exactly on nested divs or spans and on times outside media time (font sizes being positive).", "quantifier": "all trees, all clocks and offsets", "why_tests_cant": "Any nesting, number and timing of elements, any offset between the clocks.", "anchors": ["ebu_tt_live/bindings/converters/ebutt3_ebuttd.py: EBUTT3EBUTTDConverter", "ebu_tt_live/node/encoder.py: EBUTTDEncoder", "ebu_tt_live/clocks/media.py: MediaClock.get_media_time"]}
{"id": "C40", "title": "Distribution is transparent", "statement": "The distributing and buffering nodes forward every accepted payload unmodified, in arrival order and exactly once.", "quantifier": "all input histories", "why_tests_cant": "All histories.", "anchors": ["ebu_tt_live/node/distributing.py", "ebu_tt_live/node/delay.py: BufferDelayNode"]}
{"id": "C41", "title": "Node lookup by name finds the node configured under that name", "statement": "Looking up node k by the name nodek returns the node configured in slot k whenever slots 1..k are all configured; with a gap in the slots it returns a different node or fails.", "quantifier": "all slot configurations", "why_tests_cant": "All configurations (finite) and all names.", "anchors": ["ebu_tt_live/config/__init__.py: AppConfig.get_node", "ebu_tt_live/config/node.py: UniversalNodeList"]}
{"id": "C42", "title": "Badly timed elements have no influence on the rest of the document", "statement": "Deleting every element below the body whose end does not follow its begin (as the validator decides it) leaves the computed times of all other elements and of the document unchanged.", "quantifier": "all trees, attribute values and availability times", "why_tests_cant": "An equivalence between two validations for every tree.", "anchors": ["ebu_tt_live/bindings/validation/timing.py: _element_badly_timed, _semantic_postprocess_timing"]}
{"id": "C43", "title": "Computed intervals nest", "statement": "Every child that is not badly timed has its computed interval inside the computed interval of its parent, so whenever an element belongs to a time segment (is_in_segment) all the elements around it do as well.", "quantifier": "all trees with non-negative attribute values, all parent/child pairs, all segments", "why_tests_cant": "Unbounded trees and arbitrary segments.", "anchors": ["ebu_tt_live/bindings/validation/timing.py: _semantic_postprocess_timing, is_in_segment"]}
{"id": "C44", "title": "Times written with microsecond precision are read exactly", "statement": "Parsing a limited- or full-clock value whose exact decimal value is a whole number of microseconds yields exactly that number although the fraction passes through floating point; with any number of fraction digits the error is below one microsecond; timecount values that denote a whole number of microseconds up to 2^50 are read exactly.", "quantifier": "all legal texts", "why_tests_cant": "Infinitely many decimals; floating point error analysis.", "anchors": ["ebu_tt_live/bindings/_ebuttdt.py: TimecountTimingType.as_timedelta, FullClockTimingType.as_timedelta, LimitedClockTimingType.as_timedelta"]}
{"id": "C45", "title": "Every element is in the region named nearest to it", "statement": "When no region is named inside an element that names one, the region in effect for every element of a document is the one named by the element or its nearest ancestor naming one, and an element naming a region is always in that region; a region that is not in the layout is rejected.", "quantifier": "all documents, nestings and layouts", "why_tests_cant": "The region in effect is threaded through the traversal as mutable state, so it depends on everything visited before.", "anchors": ["ebu_tt_live/bindings/validation/presentation.py: _semantic_set_region, _semantic_unset_region", "ebu_tt_live/bindings/__init__.py: div_type, p_type"]}
{"id": "C46", "title": "The applicable styles of an element", "statement": "The styles recorded as applicable to an element are its own (in resolution order), then those of its ancestors and whatever else is on the style stack, then those of its region, each listed once; the styles of every ancestor are among them.", "quantifier": "all documents and nestings", "why_tests_cant": "The style stack is mutable state threaded through the traversal.", "anchors": ["ebu_tt_live/bindings/validation/presentation.py: _semantic_collect_applicable_styles, _semantic_push_styles, _semantic_pop_styles"]}
{"id": "C48", "title": "The timeline finds every element of a range, in order", "statement": "Looking up a time range in a document's timeline of begin and end events gives exactly the elements that begin before the range ends and have not ended when it begins, each once, in chronological order of their begins, provided no element ends before it begins.", "quantifier": "all timelines built from any elements with any begin and end times, all ranges", "why_tests_cant": "All combinations of overlapping elements and ranges, including elements with equal times.", "anchors": ["ebu_tt_live/documents/ebutt3.py: TimelineUtilMixin, lookup_range_on_timeline, add_to_timeline"]}
{"id": "C47", "title": "A segment is complete in itself", "statement": "Every style and region reference in a segment is to a style or region in the head of that segment, and the references of its styles and regions are too; the head holds copies of the original head elements only, in their order, each applicable to the body or to a copied element; all identifiers of the segment are unique; and every reference resolves to the same list of styles with the same attribute values (multiRowAlign apart) as in the original.", "quantifier": "all validated documents, windows and both settings of deconflict_ids", "why_tests_cant": "All style graphs, documents and windows; pruning depends on which elements survive.", "anchors": ["ebu_tt_live/documents/ebutt3_segmentation.py: _prune_orphan_elements, compute_document_segment", "ebu_tt_live/bindings/__init__.py: styling, layout, style_type and region_type copy hooks", "ebu_tt_live/bindings/validation/presentation.py: _semantic_copy_verify_referenced_styles, _semantic_copy_verify_referenced_region"]}
{"id": "C49", "title": "Conversion to EBU-TT-D keeps font and line heights", "statement": "If EBUTT3EBUTTDConverter.convert_document succeeds, then in the result the percentages of the generated styles, multiplied from one cell downwards, give every p and span exactly the height of font that validation computed for the corresponding element of the source. In a validated document whose sizes are positive no size makes conversion fail. If elements that change the size by the same factor have the same line height relative to their font size, every p or span whose size differs from that of the element around it has in the result the line height (in cells) it has in the source.", "quantifier": "for all clocks and all documents that convert (line heights: all coherent ones); any nesting, any positive sizes in cells, pixels and percentages, on elements, styles and regions", "why_tests_cant": "The percentages multiply along arbitrary paths of the tree, and the generated styles are shared between elements of the whole document and changed after they were made.", "anchors": ["ebu_tt_live/bindings/converters/ebutt3_ebuttd.py:43-128", "ebu_tt_live/bindings/converters/ebutt3_ebuttd.py:322-350", "ebu_tt_live/bindings/_ebuttdt.py:545-581", "ebu_tt_live/bindings/__init__.py:216-272"]}
{"id": "C50", "title": "Conversion to EBU-TT-D keeps the other styles and dangles no reference", "statement": "Every style and region that the result of convert_document refers to, from the body or from a region, is in the result. No identifier is given to two styles, and every generated style is referred to. For a validated document in which no style refers to another and the body has no style: every div, p and span has in the result, after inheritance from the elements around it and from its region, the value that validation computed in the source for color, direction, fontFamily, fontStyle, fontWeight, linePadding, textAlign, textDecoration and wrapOption, and for the attributes that are not inherited, backgroundColor and unicodeBidi; named colours are replaced by the colours they name.", "quantifier": "for all clocks, all documents that validate and convert (values: without references between styles and without style on body)", "why_tests_cant": "The value of an attribute depends on all the styles along a path to the root and on the region; conversion rebuilds each style and each list of references, and the source keeps the region in mutable state.", "anchors": ["ebu_tt_live/bindings/converters/ebutt3_ebuttd.py:168-288", "ebu_tt_live/bindings/_ebuttdt.py:118-140", "ebu_tt_live/bindings/validation/presentation.py:43-189", "ebu_tt_live/bindings/__init__.py:348-417"]}
{"id": "C51", "title": "Segments, and documents spliced from segments, look like the documents they come from", "statement": "For a validated document in which no element with a region stands inside another with a region, the segment made by extract_segment validates again, and at every instant of the window (read at the last microsecond of its millisecond) it shows the same elements, in the same order and nesting, each in the region it was in (under the region's copied identifier) and with the same computed style, except for multiRowAlign. Splicing segments of differently numbered documents gives a document that validates and shows at every instant, in order, what each segment shows, with the same computed styles, when the bodies hand down the same style.", "quantifier": "for all validated documents without nested regions, all windows, all instants, all lists of segments of differently numbered documents", "why_tests_cant": "What an element looks like depends on every style along the path to the root, on the region and on the sizing of the document; segmentation renames and drops styles and regions and splicing discards the later bodies, so a lost or captured reference shows only for particular combinations.", "anchors": ["ebu_tt_live/documents/ebutt3_segmentation.py:9-209", "ebu_tt_live/documents/ebutt3_splicer.py:8-81", "ebu_tt_live/bindings/__init__.py:109-130", "ebu_tt_live/bindings/__init__.py:348-425", "ebu_tt_live/bindings/validation/presentation.py:43-189"]}
{"id": "C52", "title": "The document extracted from a sequence, and every document the re-sequencer sends, shows what the sequence was showing", "statement": "After any disciplined history of deliveries and forgetting, extract_segment(begin, end) on a sequence of validated documents of one extent and cell resolution returns a document that validates, carries the number asked for, shows at every instant of the window (read at the last microsecond of its millisecond) exactly the elements, regions and computed styles (multiRowAlign aside) of the document active then, nothing where none is active, and nothing outside the window. For a stream of such documents in order of their numbers, the k-th document the re-sequencing node sends carries its own sequence identifier and number k and does this for the k-th window of its segment length, with or without discarding, for all documents received so far.", "quantifier": "for all histories, all documents and contents that can be cut (styling and layout present, no div in the window without a paragraph in it, times writable), all windows, all instants, all interleavings of arrivals and ticks", "why_tests_cant": "It joins resolution of overlapping documents, cutting, renaming, splicing, validation and the node's state; a wrong image shows only for particular overlaps, window boundaries or styles, and discarding may lose a document that is needed only several ticks later.", "anchors": ["ebu_tt_live/documents/ebutt3.py:542-561", "ebu_tt_live/documents/ebutt3.py:696-711", "ebu_tt_live/documents/ebutt3.py:956-1012", "ebu_tt_live/node/consumer.py:129-151"]}
{"id": "C53", "title": "Websocket carriages start exactly when their addresses are compatible, in any order, and are wired to their own addresses only", "statement": "Starting an application with any set of websocket outputs and inputs succeeds exactly when no two outputs and no two inputs listen on one address, different listening addresses are at different ports (or at port 0), and there is no output with the older protocol. The order in which the set of configurators is gone through makes no difference to success or wiring. After a successful start what an output carriage emits goes to the server at its listening address and its own connections and to no others; what comes in there for an input goes to that input only; there is one server for each address. A second output or input on an address is refused with ValueError; an output with the older protocol always fails; an input with it starts but asks for no channel, so nothing ever reaches it.", "quantifier": "all configurations, all port assignments, all start orders, all sets of started components; all histories of a server with the older protocol", "why_tests_cant": "The order is that of a Python set of objects and changes from run to run; sharing of producers between factories depends on which parts came before.", "anchors": ["ebu_tt_live/config/backend.py:11-253", "ebu_tt_live/config/carriage.py:147-243", "ebu_tt_live/twisted/websocket.py:142-215", "ebu_tt_live/twisted/websocket.py:265-343"]}
{"id": "C54", "title": "A direct carriage connects the output and the input configured last under its name", "statement": "After any sequence of direct inputs and outputs has been configured, data emitted into the direct carriage of a name reaches exactly the input configured last under that name, and a request to resume goes to the output configured last; ends under other names have no influence. Earlier inputs under the name get nothing, silently.", "quantifier": "all sequences of direct inputs and outputs with any names", "why_tests_cant": "One object per name is shared through a class attribute; tests configure one pair at a time.", "anchors": ["ebu_tt_live/config/carriage.py:13-46", "ebu_tt_live/carriage/direct.py:5-17", "ebu_tt_live/carriage/base.py:22-72"]}
{"id": "C55", "title": "Re-sequenced and encoded documents show the texts of the sequence, at their media times", "statement": "Documents of one sequence arrive at a re-sequencing node, whose segments go to an EBU-TT-D encoder. The documents have only the elements EBU-TT-D has room for, no text beside spans in one element, no font size of zero, and no element whose end does not follow its begin; a div is only active together with one of its paragraphs. Then every segment is converted without error, and at each instant of its window (read to the millisecond) the texts to be read in the EBU-TT-D document, at the media time counted from the encoder's media_time_zero, rounded up to a millisecond, for documents on clock time, are those of the document active in the sequence at that instant, in document order; outside the window and where no document is active there are none. When a paragraph has text beside spans, its text is shown at all times.", "quantifier": "all histories of arrivals and ticks, all documents as described, all segment lengths and all start times from 1 ms, to the microsecond, all instants, both time bases, all media_time_zero not after the first window", "why_tests_cant": "Three components computed separately (cutting and joining, style and time computation, conversion) must agree at every instant for every interleaving; tests compare single converted files.", "anchors": ["ebu_tt_live/node/consumer.py:129-151", "ebu_tt_live/node/encoder.py:26-48", "ebu_tt_live/documents/ebutt3.py:956-1012", "ebu_tt_live/bindings/converters/ebutt3_ebuttd.py:54-363"]}
{"id": "C56", "title": "Every line the producer is given can be read on the screen in its second", "statement": "A SimpleProducer is started at successive times of its clock, with lines cut from a text (used over and over) or without any, in which case it shows the time; its documents arrive at a re-sequencing node, whose segments go to an EBU-TT-D encoder. Every start makes one document, numbered one above the document before, with the next lines, beginning a second after the time of the start (cut to milliseconds) and lasting a second. At each instant of the window of a segment the texts to be read in the encoded document, in order, are the lines of the last subtitle that has begun by then (its second has come and it has arrived), among those that arrived before the segment was made, if its second is not over; outside the window there are none. When there are no more lines a start raises EndOfData and changes nothing. An empty list of lines raises IndexError, and lines offered when the time reached is in or after the hundredth hour are lost with an error: both use up a number.", "quantifier": "all texts of words that are not blank, all lists of lines, all sequences of starts, arrivals and segments in which documents arrive before they are over and times are below 100 hours, all segment lengths and start times from 1 ms, all instants, all media_time_zero not after the first window", "why_tests_cant": "The chain crosses text cutting, document building, validation, sequence storage, segmentation, joining and conversion; tests exercise each component with a few fixed documents and never compare the lines given with the texts shown over time.", "anchors": ["ebu_tt_live/node/producer.py:36-113", "ebu_tt_live/node/consumer.py:29-54", "ebu_tt_live/node/consumer.py:129-151", "ebu_tt_live/documents/ebutt3.py:484-529", "ebu_tt_live/documents/ebutt3.py:698-715", "ebu_tt_live/utils.py:199-252", "ebu_tt_live/node/encoder.py:26-48", "ebu_tt_live/scripts/ebu_simple_producer.py:50-62"]}
{"id": "C57", "title": "Times are read in the time base of their document", "statement": "When an EBU-TT Live document is read, it is accepted exactly if each begin, end and dur is a time of its timeBase: for clock a clock time with two hour digits or a count with a unit, for media a clock time with two or more hour digits or a count, for smpte (begin and end only) a time code; times in the metadata of the head need not agree with the timeBase. Each time then has the type of that kind, whatever the order in which the types are tried, so that the later check of time bases never fails for a document that was read; and where a text fits two clock types its value is the same in both. Values set by program instead of read are given the first type they fit: a clock time such as 10:00:00 set as text is refused by validation as begin or end of a clock document and as dur of a media document, and a timedelta set as begin or end becomes a time code worth zero. An EBU-TT-D document with any begin or end cannot be read at all.", "quantifier": "all texts, all documents as sequences of timed attributes and metadata times, all time bases, all orders of the types in the schema's unions", "why_tests_cant": "The accepted texts are infinite languages that overlap, and the type chosen depends on a hidden context and on the order of types in the schema; the tests try lists of example texts. The test class for reading EBU-TT-D is an empty placeholder.", "anchors": ["ebu_tt_live/bindings/_ebuttdt.py:27-95", "ebu_tt_live/bindings/_ebuttdt.py:223-434", "ebu_tt_live/bindings/__init__.py:447-456", "ebu_tt_live/bindings/validation/timing.py:25-36", "ebu_tt_live/bindings/validation/timing.py:234-261", "ebu_tt_live/bindings/validation/timing.py:363-380", "ebu_tt_live/documents/ebuttd.py:37-48", "ebu_tt_live/xsd/ebutt_datatypes.xsd:140-182"]}
{"id": "C58", "title": "Documents that compare equal are the same", "statement": "compare_xml, by which the tests decide that a document was not modified, finds two elements equal exactly if they have the same tag, the same attributes in any order, the same text as a whole up to the replacement of two white characters in a row by a blank, and child elements that are pairwise equal. This is an equivalence, and elements found equal are the same with regard to namespaces in any scope, so that the false positive its comment warns of does not occur. Where no element has both text and elements, nor two white characters in a row, nothing but the order of attributes is overlooked. In general the place of text between child elements, comments, processing instructions and the text of CDATA sections are overlooked. If only the second text begins with an XML declaration, or anything but a comment is before the root, it raises an exception.", "quantifier": "all trees of nodes in which no element has two attributes of a name, all texts, all parsers", "why_tests_cant": "The comparison is the oracle of two test files and is not tested itself; what it overlooks never makes a test fail.", "anchors": ["ebu_tt_live/utils.py:372-395", "ebu_tt_live/utils.py:398-468"]}
{"id": "C59", "title": "Logging the subtitles changes nothing, unless paragraphs have metadata", "statement": "A sequence made verbose logs the content of documents as they are inserted, trimmed or discarded. If no paragraph or span of the documents has metadata, it stores, trims and discards as one that is not verbose, raises no exception, and for a document that is newer and later than all others logs the document on screen up to the begin of the new one and then the new one. A paragraph is logged with all its texts in order; given an end, each paragraph and span is logged with exactly the part of its time on screen within the range. Of a discarded document whose elements begin no earlier than it nothing is logged. With metadata in a paragraph or span, which the schema allows, add_document raises AttributeError: the document is stored, but the next one that comes while it is on screen is not, and as the former was ended for it, nothing is on screen from then on; sent again the document is stored.", "quantifier": "all contents of documents, all histories of deliveries and discards as in C01 and C09, all next documents", "why_tests_cant": "Documents with metadata in p or span (facet.feature) are not put into a sequence by any scenario, and what is logged is not checked; the tests only ever see single histories.", "anchors": ["ebu_tt_live/bindings/validation/content.py:45-82", "ebu_tt_live/documents/ebutt3.py:411-430", "ebu_tt_live/documents/ebutt3.py:447-482", "ebu_tt_live/documents/ebutt3.py:717-917"]}
{"id": "C60", "title": "A control request reaches its readers as it was sent", "statement": "An authors group control request (EBUTTAuthorsGroupControlRequest) with a text as payload, written with get_xml and read by the XML adapter, has the same sequence identifier, sender, recipients and payload, and no availability time. Sent through any chain of distributing, handover, retiming and buffer delay nodes, whatever keyword arguments the carriages in between pass on, it arrives once, with sender, recipients and payload unchanged, under the sequence identifier of the last handover node or else its own; in particular a retiming node leaves it under the old identifier. One de-duplicating, encoding or consuming node in the chain, and it is dropped without an exception. This holds for texts of characters XML has, without carriage returns, and identifiers without control characters. Of other texts that were read once, line ends become line feeds, white space in the identifier becomes spaces (which a carriage that passes the identifier on finds out as UnexpectedSequenceIdentifierError) and an empty sender none, at the next node, after which the message no longer changes; characters that XML does not have make the message unreadable. A message of another type is handed on as a control request by every node but the buffer delay node, while EBUTT3ObjectBase.create_from_xml raises KeyError for it; of a payload with text and elements only the text before the first element is read; a message with an empty payload can be written, but raises IndexError in every node that reads it.", "quantifier": "For all messages with a text payload; all chains of nodes, all states of them and all carriages that keep or drop sequence_identifier and availability_time.", "why_tests_cant": "The tests read and write the one message in message.xml, of the known type, and give messages made by hand or mocks to single nodes; no test sends one through the adapters, through more than one node, with another type, with mixed or empty payload, or with white space in the identifier.", "anchors": ["ebu_tt_live/documents/ebutt3.py:153-259", "ebu_tt_live/bindings/_ebuttlm.py:14-42", "ebu_tt_live/adapters/document_data.py:14-43", "ebu_tt_live/adapters/document_data.py:68-91", "ebu_tt_live/node/distributing.py:49-57", "ebu_tt_live/node/handover.py:92-97", "ebu_tt_live/node/delay.py:78-79", "ebu_tt_live/node/delay.py:96-98", "ebu_tt_live/node/deduplicator.py:34-49", "ebu_tt_live/node/encoder.py:35-48", "ebu_tt_live/node/consumer.py:29-55"]}
{"id": "C61", "title": "A configuration of nodes does what its nodes are for", "statement": "Nodes (retiming, de-duplicating, handover, distributing, encoding, consuming, buffer delay) are put one after another by carriages (direct, filesystem, websocket), with or without configured adapters. Without configured adapters every such configuration starts, whatever its nodes. A check of the configuration alone decides whether it works: it follows the form of the data and whether the keyword arguments raw_xml, sequence_identifier, time_base and delay come along and still fit the document. If the check passes, the configuration starts, and what comes out for every accepted document, from a producer, a file or a websocket, is what the nodes make of it one after another. If not, there are nodes of the same kinds for which something else comes out or nothing. In particular: a distributor joined directly, or through other rewriting nodes, to a retiming, de-duplicating or handover node that reads XML sends the XML that was read, not the rewritten document, under the new sequence identifier, so that readers of a websocket raise UnexpectedSequenceIdentifierError and readers of files get the original document; text that reaches a node for documents by a direct carriage is handed on unchanged by a retiming node, dropped without an exception by de-duplicator, encoder and consumer, and raises in handover and distributing nodes; two buffer delay nodes joined directly raise TypeError for every document, and so does an encoder that reads what a distributor sends directly; a buffer delay node between the filesystem and a websocket sends documents as 'default', and nodes that read them raise.", "quantifier": "For all chains of nodes of any length, all carriages and all lists of configurable adapters, all documents and all functions as the work of the nodes.", "why_tests_cant": "The tests of configurations (testing/test_config.py) start one node each, with direct carriages that nothing is sent through; all others give documents to nodes one at a time. None puts a node behind another by a carriage. That raw_xml is sent instead of the document is tested for a distributor alone, where the document is a mock or the XML is its own.", "anchors": ["ebu_tt_live/node/distributing.py:23-57", "ebu_tt_live/node/delay.py:33-79", "ebu_tt_live/node/delay.py:96-98", "ebu_tt_live/node/deduplicator.py:34-49", "ebu_tt_live/node/encoder.py:35-48", "ebu_tt_live/node/handover.py:35-97", "ebu_tt_live/node/consumer.py:29-55", "ebu_tt_live/carriage/direct.py:5-17", "ebu_tt_live/carriage/websocket.py:10-32", "ebu_tt_live/carriage/filesystem.py:205-218", "ebu_tt_live/adapters/node_carriage.py:20-65", "ebu_tt_live/adapters/document_data.py:14-43", "ebu_tt_live/config/adapters.py:6-22", "ebu_tt_live/config/node.py:20-67"]}
{"id": "C62", "title": "Text carried as XML is shown as it was", "statement": "A document is written as XML and read back (get_xml and create_from_xml, as every carriage but the direct one does between nodes). Every document that keeps to the content models can be read back, with the same elements and attributes; the characters one can see and the line breaks are the same, in the same order, after any number of such carriages. It is shown as before (xml:space as in TTML: preserved white space is shown, other white space collapses to one blank and none at the ends of a line) exactly if no p or span with xml:space=\"preserve\" has more in it than one text without carriage return, and no two texts of a paragraph touch without white space between them. In all other cases it is not: toprettyxml puts each child of a p or span on a line of its own, so that 'foo<span>bar</span>' is shown as 'foo bar'. One carriage is as good as many, unless a p or span that preserves white space has a span, line break or metadata in it: then every carriage puts in more. What the simple producer makes, lines in spans with line breaks between them, is shown as before.", "quantifier": "For all documents with any nesting of tt, body, div, p and span, all texts and attributes, all numbers of carriages.", "why_tests_cant": "The tests that write and read back a document (node/test/test_encoder.py, testing/bdd/test_bufferDelayNode.py) do not look at its text. xml:space occurs in no test. compare_xml, used for documents that are handed on, takes white space of two characters and more for one blank.", "anchors": ["ebu_tt_live/bindings/__init__.py:521-528", "ebu_tt_live/bindings/__init__.py:1134-1141", "ebu_tt_live/documents/ebutt3.py:315-323", "ebu_tt_live/documents/ebutt3.py:533-534", "ebu_tt_live/adapters/document_data.py:14-28", "ebu_tt_live/adapters/document_data.py:60-91", "ebu_tt_live/node/distributing.py:23-31", "ebu_tt_live/node/producer.py:35-59", "ebu_tt_live/xsd/ebutt_live.xsd:224-246", "ebu_tt_live/xsd/ebutt_live.xsd:279-296"]}
{"id": "C63", "title": "Spacing, language, agent and role of a text stay what they were", "statement": "Of every text, the values of xml:space, xml:lang, ttm:agent and ttm:role nearest to it hold. In a segment made by extract_segment every text keeps its language, agent and role, and also its xml:space exactly if tt has none or each text of the segment has one nearer; an xml:space on tt is lost, so that white space that was to be preserved is shown collapsed. The document that a sequence makes of several documents for a window says of every text what its own document says, exactly if the first document, without its xml:space, says the same as its own in everything not said nearer to the text: otherwise texts get the language of the first document and the agent and role of its body. Conversion to EBU-TT-D keeps everything but the roles of divs. Re-sequencing and encoding therefore keep everything if the documents have no xml:space on tt, one language, bodies with the same agent and role, and no role on a div. In all these documents no agent that is named is declared, and no line break has a role.", "quantifier": "For all documents with any nesting of div, p and span, all selections of elements for segments, all numbers of documents.", "why_tests_cant": "The tests of segmentation, splicing and conversion use one language on tt and look at identifiers, times, styles and regions; xml:space occurs in no test, and no Python test mentions agent or role.", "anchors": ["ebu_tt_live/bindings/__init__.py:460-501", "ebu_tt_live/bindings/__init__.py:665-670", "ebu_tt_live/bindings/__init__.py:686-714", "ebu_tt_live/bindings/__init__.py:757-783", "ebu_tt_live/bindings/__init__.py:815-818", "ebu_tt_live/bindings/__init__.py:834-858", "ebu_tt_live/bindings/__init__.py:905-976", "ebu_tt_live/documents/ebutt3_segmentation.py:69-129", "ebu_tt_live/documents/ebutt3_splicer.py:37-81", "ebu_tt_live/documents/ebutt3.py:696-707", "ebu_tt_live/documents/ebutt3.py:956-1012", "ebu_tt_live/bindings/converters/ebutt3_ebuttd.py:130-143", "ebu_tt_live/bindings/converters/ebutt3_ebuttd.py:241-291", "ebu_tt_live/bindings/converters/ebutt3_ebuttd.py:319-349"]}
{"id": "C64", "title": "What one node sends, the next accepts", "statement": "A document is refused for the attributes of tt exactly if it breaks the rules of EBU-TT Part 3 for frameRate, dropMode, markerMode and clockMode. A consumer or re-sequencer lets in all of several documents with different numbers exactly if these have one sequence identifier, one time base (and clock mode) for which there is a clock, and no two different authors groups. A re-sequencer fed with valid documents, in whatever order and with whatever failures in between, sends only documents with valid attributes; documents with these attributes are never turned away by the next node, and are again valid input for a re-sequencer. For a window without content it sends a document with the attributes of its sequence; only on time base smpte it cannot, raises SemanticValidationError and repeats this at every call until a document comes. Except there, new_document of a sequence gives a valid document that the sequence accepts, numbered above all others. Retiming and de-duplicating keep documents together that belong together. What a handover node sends is let in by the next node exactly if the authors it switched between use one clock, which the node does not check. A node whose first document has clock mode gps raises an error for every later document and every segment.", "quantifier": "For all documents, all orders of arrival, all histories of calls and failures, all numbers of documents.", "why_tests_cant": "Each node is tested alone with documents written for it; no test feeds the output of a re-sequencer or handover node to another node, and no Python test mentions ReSequencer.", "anchors": ["ebu_tt_live/bindings/__init__.py:460-503", "ebu_tt_live/bindings/__init__.py:534-589", "ebu_tt_live/bindings/__init__.py:611-628", "ebu_tt_live/bindings/validation/base.py:91-107", "ebu_tt_live/documents/ebutt3.py:283-304", "ebu_tt_live/documents/ebutt3.py:625-715", "ebu_tt_live/documents/ebutt3.py:956-1012", "ebu_tt_live/documents/ebutt3_splicer.py:35-81", "ebu_tt_live/node/consumer.py:29-61", "ebu_tt_live/node/consumer.py:120-151", "ebu_tt_live/node/handover.py:35-97", "ebu_tt_live/node/delay.py:33-79", "ebu_tt_live/node/deduplicator.py:34-48", "ebu_tt_live/clocks/__init__.py:10-22"]}
{"id": "C65", "title": "Which component classes can be defined, used, found and connected", "statement": "Whatever classes are defined, in whatever order: every class looks names up in itself and its ancestors, each once, its bases in the order given and the ancestors of a base in the base's order. An object of a class can be made exactly if the class does not set __metaclass__ itself and none of the names it sees is abstract. A class of which nothing is abstract is refused exactly if its own body asks for a member, a member asked for in the body of one of its direct bases has no value, the first direct base to ask for a member does not accept the value, or it is to be registered as an adapter and has no types or clashes with one that provides ANY. Members asked for further up are not checked, so a node without types of data is accepted, and objects of it can be made; it cannot be connected. A node and a carriage are connected exactly if they are of the right interfaces, both have types, and the types are equal. As long as every class that registers is accepted and none provides ANY, the adapter found for two types is the first class with these types that derives directly from IDocumentDataAdapter and has nothing abstract; adapters derived from adapters are never found. Otherwise a refused class can be found, keep a correct adapter out and leave no adapter when it is gone, and an adapter that provides ANY makes further definitions a KeyError.", "quantifier": "For all programs of class statements and garbage collections, all bodies and bases, all pairs of types and components.", "why_tests_cant": "AbstractStaticMember, its validators and AutoRegisteringABCMeta have no tests of their own; the one test that defines a class checks registration of one correct adapter. Which classes pass depends on the whole hierarchy above them and, for adapters, on all classes defined before.", "anchors": ["ebu_tt_live/utils.py:255-359", "ebu_tt_live/adapters/base.py:12-83", "ebu_tt_live/node/interface.py:8-91", "ebu_tt_live/carriage/interface.py:8-111", "ebu_tt_live/node/base.py:44-61", "ebu_tt_live/node/base.py:115-132", "ebu_tt_live/carriage/base.py:25-41", "ebu_tt_live/carriage/base.py:55-71"]}
{"id": "C66", "title": "A sequence presents the right document whatever the order of delivery", "statement": "Whatever documents are added to a new sequence in whatever order, provided each is an object of its own and ends no earlier than it begins and not at the time origin: as long as every call of add_document that raised left the stored documents and the timeline as they were, the sequence presents a document at a time (between its resolved begin and end times) exactly if it was added without an error, has begun and not ended, and no document with a higher number that was added without an error has begun by then; so in particular when no call raises. A call that raises changes nothing unless the sequence holds a document with a lower number that begins no earlier than the new one. After documents delivered with discipline (C01), any further document with an end is taken, however late it is and whatever it overlaps. A further document without an end that no newer document supersedes but that a newer one follows always raises TypeError, and all documents it would have replaced are lost. Documents can be lost in the same way when all documents have ends, and a document that ends at the time origin is presented for ever.", "quantifier": "For all histories of documents in any order, all overlaps, all points in time.", "why_tests_cant": "Which document is shown depends on all arrival orders of all overlapping intervals; the left-over and misplaced events that late documents leave in the timeline take several out-of-order deliveries to matter. Lost documents show only after a call that raised, where tests stop.", "anchors": ["ebu_tt_live/documents/ebutt3.py:717-871", "ebu_tt_live/documents/ebutt3.py:898-951"]}
{"id": "C67", "title": "The text of positions and sizes", "statement": "Origins, extents, font sizes, line heights and the cell resolution accept exactly the texts that the schema allows, there is one way to read each, and horizontal and vertical are the doubles next to the decimals in it - except that a sign is not looked at, so an origin of -5% is read as 5%. Given numbers instead of text, the types accept exactly: the right count of them; for the cell resolution positive integers only; for the others integers, and floats that are zero or, rounded to twelve digits, at least 0.0001 and less than 10^12; negative ones for origins only. What is read back is the absolute value up to 6 parts in 10^12, exactly for the doubles of decimals with up to twelve digits, and writing it again gives the same text. The conversion to EBU-TT-D turns an origin or extent in cells into the percentage of the cell resolution, up to 7 parts in 10^12 and without the sign; it raises for percentages below 0.00009999% other than zero and not for any from 0.0001% to 990000000000%. Two values of one type are equal exactly if the sizes read from them are (a font size in cells of one number being as wide as high), two of different types exactly if their texts are; within a type == is an equivalence, across types it is not transitive.", "quantifier": "For all texts, all integers and doubles, all cell resolutions.", "why_tests_cant": "The tests of sizes use only 10 and 20. Signs, values that are printed with an exponent, rounding errors and comparisons across types are not among their inputs, and the bound on the error is over all doubles.", "anchors": ["ebu_tt_live/bindings/_ebuttdt.py:143-220", "ebu_tt_live/bindings/_ebuttdt.py:439-685", "ebu_tt_live/xsd/ebutt_datatypes.xsd:13-131", "ebu_tt_live/bindings/converters/ebutt3_ebuttd.py:178-192"]}
{"id": "C68", "title": "Which documents validation accepts", "statement": "Semantic validation of a document raises nothing exactly if: the extent of tt, if given, is in pixels; the attributes of tt fit the time base; no two identifiers of styles, regions, divs, paragraphs and spans are equal; without an extent of tt, no font size of a style and no origin or extent of a region is in pixels; every begin, end and (on body) dur has a type that the time base allows; every style that a region or element refers to, directly or through other styles, exists and does not refer back to itself; every region that a div or paragraph names exists; and without an extent no element's styles give it a line height in pixels. When it raises, the error names something that is wrong with the document in that sense. The verdict does not depend on earlier validations, accepted or refused. Afterwards get_element_by_id finds exactly the elements with that identifier and of the class asked for and otherwise raises LookupError; after a refusal it does so for the elements up to the one refused, and if the extent of tt was refused it answers as before. Styles nothing refers to are not followed, and a pixel line height without extent is refused only where used, with a plain Exception. On an accepted document with a body, the styles left on regions and elements are those of the styling pass (C28-C30, C45, C46).", "quantifier": "For all documents (any number of styles, regions and elements, any nesting and any style references) and all states left by earlier validations.", "why_tests_cant": "Each feature file tries one rule on a few small documents. That the rules together are sufficient, that stale locks and caches on styles from a refused validation never change a later verdict, and which lookups succeed after a refusal are claims over all documents and histories.", "anchors": ["ebu_tt_live/bindings/validation/base.py:176-222", "ebu_tt_live/bindings/__init__.py:595-646", "ebu_tt_live/bindings/validation/presentation.py:43-185", "ebu_tt_live/bindings/pyxb_utils.py:94-145", "ebu_tt_live/bindings/validation/timing.py:234-261"]}
{"id": "C69", "title": "Which proxies are used", "statement": "The `proxy` option of a websocket carriage is accepted exactly if it reads HOST:PORT or PROTOCOL://HOST:PORT (HOST not empty and without colon, PORT one or more digits, PROTOCOL not empty and without newline, a newline at the end allowed). Host and port are those written and there is only one way to read them; the protocol is ignored and no port is too high. The empty text means no proxy, anything else is a ConfigurationError naming the text; IPv6 addresses and user:password@ are refused. Every connection of a websocket carriage goes through the proxy given. No connection of a websocket-legacy input does, although the option is documented and read. The scripts read --proxy otherwise: they agree on HOST:PORT, but a protocol makes them raise ValueError and an empty host is accepted.", "quantifier": "For all texts of the option (any length, any bytes), all lists of connections, and any int() that reads numerals.", "why_tests_cant": "No test mentions a proxy. A lazy regular expression with an optional group over all texts, and that its match is unique, is not settled by samples.", "anchors": ["ebu_tt_live/config/carriage.py:128-144", "ebu_tt_live/config/carriage.py:167-184", "ebu_tt_live/config/carriage.py:187-243", "ebu_tt_live/config/backend.py:138-150", "ebu_tt_live/config/backend.py:238-254", "ebu_tt_live/scripts/ebu_simple_consumer.py:70-86", "docs/source/configurator.rst:165-167"]}
{"id": "C70", "title": "When re-sequenced segments are sent", "statement": "The k-th segment a configured re-sequencing node sends covers the k-th window of segment_length after the making of the node, never the time begin_output gives, and is never sent before its window is over by the node's clock. It is late by exactly the time from the making of the node to the start of the looping call, plus one segment length for every call that sent nothing (calls being punctual); nothing makes up for it. begin_output is a time before which nothing is sent; if it is over when the application starts, starting raises AssertionError. Between two midnights, when documents begin no earlier than they arrive, no document that arrives after a segment was sent could have changed it: the segment shows what the sequence of all documents that ever arrive shows in its window. One exception in convert_next_segment ends the output for good. A document that is over before the next window begins is never sent, which is every short document arriving after midnight.", "quantifier": "For all segment lengths, begin_output values, starting times, histories of documents and calls with any durations, and all documents as in C24 and C52.", "why_tests_cant": "No test runs the configured node against a clock; the claims are about every schedule and every arrival, including those across midnight.", "anchors": ["ebu_tt_live/config/node.py:97-156", "ebu_tt_live/config/backend.py:255-268", "ebu_tt_live/node/consumer.py:82-106", "ebu_tt_live/clocks/local.py:5-12", "docs/source/configurator.rst:101"]}
{"id": "C71", "title": "Who receives what is read from files", "statement": "When an application is started, nothing is received by anyone until the reactor runs, whatever its nodes do and in whichever order its configurators are started. All lines of a manifest are read before that, so no websocket connection ever receives a document that was read from a manifest and sent without a delay: what it receives was sent with a delay or came in while the reactor ran. A document sent with a delay (buffer delay node) is kept exactly if the websocket output was started before the file input, and then goes to those connected when the delay is over; the order is that of a set of objects, and two orders can differ in what a viewer gets. File outputs get everything. A file input with the tail option keeps the reactor from running until it is interrupted, wherever it comes in the order, and what comes after it is not started; otherwise the reactor runs unless something raises.", "quantifier": "For all networks of nodes (any machine reacting to inputs), all orders of configurators, all manifests, and all histories of connections, inputs and time.", "why_tests_cant": "The order of starting is not under the control of a test, and the absence of a message for all networks and histories cannot be sampled. No test starts a file input in an application.", "anchors": ["ebu_tt_live/config/backend.py:24-29", "ebu_tt_live/config/backend.py:100-102", "ebu_tt_live/config/carriage.py:90-111", "ebu_tt_live/carriage/filesystem.py:242-262", "ebu_tt_live/carriage/websocket.py:10-25", "ebu_tt_live/twisted/websocket.py:142-178", "ebu_tt_live/examples/config/producer_resequencer_consumer_fs.json"]}
{"id": "C72", "title": "Comparing documents and asking a sequence for one", "statement": "Two EBU-TT Part 3 documents of one sequence compare by all six operators as their sequence numbers do. A comparison of a document with anything else gives a value exactly if both have the same sequence identifier (a document is below every message of its sequence); otherwise == and != raise too: ValueError for another sequence, AttributeError for an object without sequence identifier such as None, NotImplementedError with an EBU-TT-D document on the left (which cannot be compared with itself either). max of documents of one sequence is the first with the highest number, sorting them puts them in the order of their numbers, and both raise ValueError for every list with documents of two sequences, however it is arranged and whichever comparisons the sort makes. `in` is decided by the first document in the list that has the number or is of another sequence. get_document(n) of a sequence, after any use of it, gives the document with exactly n documents of lower numbers (from the end for a negative n) and IndexError if there are not that many; as numbers start at 1 it never gives the document with the number n.", "quantifier": "For all documents, messages and other objects, all lists of documents, all correct comparison sorts, and all histories of calls on a sequence and all n.", "why_tests_cant": "Tests compare a few pairs of documents; the claim about every sort and every list, and about every history of a sequence, is over unbounded sets. No test calls get_document.", "anchors": ["ebu_tt_live/utils.py:14-63", "ebu_tt_live/documents/ebutt3.py:325-330", "ebu_tt_live/documents/ebutt3.py:919-920", "ebu_tt_live/documents/base.py:48-58", "ebu_tt_live/documents/ebuttd.py:12-25"]}
{"id": "C73", "title": "Which configurations make an application, and what it starts", "statement": "create_app makes an application, in a process that has made none, exactly when the backend is a known one and, for every node configured, the names of its type, of its clock if it has one and of its carriages are known, its adapters have known types and fit, a time it uses is one, and it has a clock where it needs one when it is made (a re-sequencer always; an encoder when its media_time_zero is 'current'); its nodes are then those configured, in the order of the slots. Each exception tells what is wrong with some node or with the backend; a wrong name of a node, clock or carriage is a ConfigurationError whatever else is wrong, and of a backend an AttributeError. Of any number of attempts in one process at most one succeeds; none does after one with right names that failed when its nodes were made; attempts refused for a name change nothing. When the application is started, in whatever order its components come, exactly these are started, each once: every input, every output but those to files, every producer, re-sequencer and handover node. With the dummy backend this raises exactly when a websocket carriage is used. A producer with the clock 'auto' is called at most once and never sends anything; with another it sends a document at each call.", "quantifier": "all configurations, any number of slots and adapters, all orders of starting, all sequences of attempts, all schedules", "why_tests_cant": "The tests make a handful of applications and reset the backend before each, so none makes two in one process; the order of starting is that of a Python set; and no test configures a clock.", "anchors": ["ebu_tt_live/config/__init__.py:32", "ebu_tt_live/config/common.py:23", "ebu_tt_live/config/backend.py:24", "ebu_tt_live/config/backend.py:277", "ebu_tt_live/config/node.py:117", "ebu_tt_live/config/node.py:262", "ebu_tt_live/config/node.py:353", "ebu_tt_live/config/node.py:382", "ebu_tt_live/config/clocks.py:36", "ebu_tt_live/config/carriage.py:246", "ebu_tt_live/config/adapters.py:14"]}
{"id": "C74", "title": "Sequence identifiers outside ASCII", "statement": "In Python 2 a document that validateBinding accepts can be made, from XML or by the constructor, exactly when its sequenceIdentifier has ASCII characters only; otherwise UnicodeEncodeError is raised. So with an identifier outside ASCII in the configuration a producer, a retiming and a de-duplicating node never send a document, whatever they receive, while a handover and a re-sequencing node send all of theirs with it. Sent as text these are refused wherever a document is made of them; written to files nothing is left but, when a pattern is configured, an empty file; handed on directly they are refused by consumers and handover nodes but accepted by retiming and de-duplicating nodes with an ASCII identifier. With ASCII identifiers no node raises UnicodeEncodeError, but for authors groups: a document of another group is refused with UnexpectedAuthorsGroupError if both groups are ASCII and UnicodeEncodeError otherwise.", "quantifier": "all identifiers, groups and numbers, all sequences of documents, all states of the nodes, all templates without escapes and format specifications", "why_tests_cant": "No test or example has an identifier outside ASCII, and what is raised depends on which of many messages, most of them for logging only, is formatted first.", "anchors": ["ebu_tt_live/documents/ebutt3.py:283", "ebu_tt_live/documents/ebutt3.py:495", "ebu_tt_live/documents/ebutt3.py:672", "ebu_tt_live/node/base.py:89", "ebu_tt_live/node/delay.py:33", "ebu_tt_live/node/deduplicator.py:34", "ebu_tt_live/node/handover.py:60", "ebu_tt_live/node/consumer.py:28", "ebu_tt_live/node/producer.py:61", "ebu_tt_live/carriage/filesystem.py:132", "ebu_tt_live/strings.py:61"]}
{"id": "C75", "title": "What the user input producer's page makes and sends", "statement": "In the page of the user input producer, whatever the user, the browser and the server do one after the other: a document has the selected sequence, its next number and the text of the text area; the documents of a sequence that is created once have the numbers 1, 2, 3, \u2026 without gap or repetition, also across reloads, so those sent have increasing numbers (but numbers are used up without a connection, and creating the identifier again repeats them); characters come at the end of the text and Escape empties it unless sending fails; after an error or a close nothing is sent until the user connects again, which is possible; every option of the selector is a sequence; after a reset nothing is made until a sequence is created; a page that is opened again has the same sequences and next numbers; nothing can ever be scheduled; Enter leaves one line less than the limit, and hangs the page exactly if the limit is empty or below 1; while nothing fails no document has more lines than the limit (an Enter while connecting fails and breaks this); the lines are read as typed exactly if they have no '<', '&' or ']]>'; while the selection does not change documents go to the address of their sequence (selecting another while connected sends to the wrong one); the last ten received items are shown, and 'on air' is lit exactly if the last document selects the selected sequence, or none while none is selected.", "quantifier": "all lists of events from the first opening of the page, all identifiers, texts, limits and received items", "why_tests_cant": "The toolkit has no tests of this page. A test of one session does not cover all orders of creating, selecting, resetting, reloading, connecting and typing.", "anchors": ["ebu_tt_live/ui/user_input_producer/uip.js:3-24", "ebu_tt_live/ui/user_input_producer/uip.js:55-101", "ebu_tt_live/ui/user_input_producer/uip.js:172-279", "ebu_tt_live/ui/user_input_producer/uip.js:338-417", "ebu_tt_live/ui/user_input_producer/uip.js:473-505", "ebu_tt_live/ui/user_input_producer/uip.js:564-672", "ebu_tt_live/ui/user_input_producer/index.html:93-115"]}
{"id": "C76", "title": "How often the user input producer's page updates its clocks, and what the media clock shows", "statement": "From when the page of the user input producer is opened, and whenever a clock is started, each half second has one update of a clock more than the one before: after k half seconds there are k in each and there were k(k+1)/2. Nothing the user does but loading the page again makes them fewer; leaving the scheduled mode, or choosing the media clock, stops only the growth. There are never more than one for each half second the page is open. Which clock is started is up to the last choice, and none is when coming back to the scheduled mode. The media clock shows the time since Synchronize plus the offset that the local time zone had that long after the beginning of 1970, so it begins with 00:00:00 exactly if that is a whole number of days.", "quantifier": "all lists of choices and half seconds from the opening of the page, all time zones, all times of Synchronize and of looking", "why_tests_cant": "The toolkit has no tests of this page, and a test would have to watch it for long, or in another time zone.", "anchors": ["ebu_tt_live/ui/user_input_producer/uip.js:29-35", "ebu_tt_live/ui/user_input_producer/uip.js:77-134", "ebu_tt_live/ui/user_input_producer/uip.js:440-447", "ebu_tt_live/ui/user_input_producer/index.html:95-106"]}
{"id": "C77", "title": "Requests for control from the user input producer's page", "statement": "A request for control that is sent from the page of the user input producer is written as typed exactly if the identifier of the selected sequence and the text have no '<', '&' or ']]>' and the identifier has no quote. The toolkit then reads a request with that identifier as sequence and sender, no recipients and that text; without a text it raises IndexError, and without a selected sequence the schema refuses it. With a tab in the identifier sender and sequence differ. A request is sent exactly while the connection is open, and the input is emptied exactly while it is open or being closed, so that a request can be lost. It is for the selected sequence, which need not be that of the connection.", "quantifier": "all identifiers, all texts of one line, all states of the page", "why_tests_cant": "The toolkit has no tests of this page, and those of its messages begin with XML from files or with objects.", "anchors": ["ebu_tt_live/ui/user_input_producer/uip.js:507-534", "ebu_tt_live/ui/user_input_producer/uip.js:685-704", "ebu_tt_live/ui/user_input_producer/template/live_message_template.xml:1-18", "ebu_tt_live/documents/ebutt3.py:153-259"]}
{"id": "C78", "title": "When the user input producer's page sends at intervals", "statement": "In the page of the user input producer, sending at intervals is started exactly by pressing Start in the mode 'asynchronously' with a positive number, when it is not started; it then goes on with that period, whatever is entered and whichever mode is chosen, so also in the other modes, until Stop is pressed in the mode 'asynchronously' (where the button can be seen) or the page is loaded again. The n-th document after the start comes after n periods.", "quantifier": "all lists of choices from the opening of the page, all entries, periods and times", "why_tests_cant": "The toolkit has no tests of this page.", "anchors": ["ebu_tt_live/ui/user_input_producer/uip.js:77-101", "ebu_tt_live/ui/user_input_producer/uip.js:449-467", "ebu_tt_live/ui/user_input_producer/uip.js:594-600"]}
{"id": "C79", "title": "Where the user input producer's page connects to", "statement": "The address that the page of the user input producer connects to, for publishing and for subscribing, is understood by the server as that very sequence identifier and action, for every identifier that is not empty, '.' or '..', whatever characters it has; for '.' and '..' the server drops the connection. Encoded identifiers consist of unreserved characters and percent signs; different identifiers have different addresses, and no selection has that of 'null'. What the page sends is handed on with the identifier selected when connecting, all of it and in order, whatever the server did before, and with dots nothing is; a result feed gets what is emitted for its identifier and nothing else.", "quantifier": "all sequence identifiers, both actions, all states of the server, all lists of messages", "why_tests_cant": "The toolkit has no tests of this page, and identifiers are arbitrary text.", "anchors": ["ebu_tt_live/ui/user_input_producer/uip.js:306-307", "ebu_tt_live/ui/user_input_producer/uip.js:391-400", "ebu_tt_live/twisted/websocket.py:101-106", "ebu_tt_live/twisted/websocket.py:219-230"]}
