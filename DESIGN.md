# Design: machine-checked model of ebu-tt-live-toolkit

Prover: Coq 8.16.1, standard library only. Source: `/repo` (Python 2), read as text.

## Layout

* `properties.jsonl` – the claims, in terms of the toolkit's API and observable behaviour.
* `rocq/theories/*Model.v` – executable definitions, each citing the file and lines it models. No proofs.
* `rocq/theories/*Spec.v` – specifications that are written without the code's mechanism (compositional
  timing semantics, "newest document that has begun", grammars).
* `rocq/theories/*Proofs.v`, `*History.v`, `*Inv.v`, `*Tree.v` – lemmas.
* `rocq/theories/Props*.v` – the theorems named in the manifest (`Cnn_…`), concrete cases that meet their
  hypotheses (`Example Cnn_case…`), and `Print Assumptions` after each.
* `MANIFEST.json` – which theorems settle which property, with the limits of each.
* `seeded/LOG.jsonl` – the wrong programs tried against the theorems.

## Conventions

* A `timedelta` is an integer number of microseconds (`Z`); its range is checked where the code can leave it.
  `None` is `option`. Exceptions are values, and the state that survives an exception is returned with it.
* Objects compared by identity carry an explicit identity.
* `SortedListWithKey`/`SortedSet` (sortedcontainers) are lists kept sorted by key: `add` inserts to the right of
  equal keys, `irange` is inclusive, `remove` removes the first element that is the same object. Trusted.
* Loops with no evident bound take fuel; a lemma shows that the fuel given always suffices.
* A claim that turned out false of the code is kept: the theorem that holds under a stated condition, and a
  theorem with a witness that breaks it without the condition.

## What is modelled

| model | code | properties |
|---|---|---|
| SequenceModel | documents/ebutt3.py: TimingEvent*, EBUTT3DocumentSequence (add_document, timeline insertion, lookup, discard_before, extract_segment's selection of documents, new_document, compatibility), document identity | C01–C10, C66 |
| TimingModel | bindings/validation/timing.py, bindings/pyxb_utils.py 94–142 (traversal), documents/ebutt3.py 484–513 | C11–C15, C42, C43 |
| TimeModel, TimeFloat | bindings/_ebuttdt.py 19–24, 223–406 (time types), xsd/ebutt_datatypes.xsd 163–182, carriage/filesystem.py 17–28; CPython 2.7 timedelta arithmetic on doubles | C16–C18, C26, C44 |
| ReadModel | bindings/_ebuttdt.py 27–95, bindings/pyxb_utils.py 18–54, the attribute hooks of bindings/__init__.py 447–456, 681–684, 752–755, 829–832, 899–903 and bindings/validation/base.py 29–36, bindings/validation/timing.py 25–36, 234–261, 363–380, xsd/ebutt_datatypes.xsd 140–182 | C57 |
| CompareModel | utils.py 372–468 (strip_quotes, compare_xml); the parser is an argument | C58 |
| VerboseModel | bindings/validation/content.py 45–82, documents/ebutt3.py 411–430, 447–482, 717–917 with verbose set; how times are printed is not modelled, nor which events are removed when a discard raises | C59 |
| MessageModel | documents/ebutt3.py 153–259, bindings/_ebuttlm.py 14–42, xsd/ebutt_livemessage.xsd, adapters/document_data.py 14–43, 68–91 on messages, the branches for messages of node/*.py; reading and writing of text as in XML 1.0 and minidom; not what PyXB makes of an element as payload | C60 |
| WiringModel | process_document of node/*.py for an accepted document (delay.py, deduplicator.py, handover.py, distributing.py, encoder.py, consumer.py) with _expects and _provides; carriage/direct.py 5–17, carriage/websocket.py 10–32, carriage/filesystem.py 132–133, 205–218 (what arrives, not how), config/adapters.py 6–22, config/node.py 20–67; adapters through AdapterModel; not the work of the nodes, which is a parameter | C61 |
| PrintModel | bindings/__init__.py 521–528, 1134–1141 (toxml) with minidom's writexml, and 52–59 (reading) with the line ends of XML and the texts PyXB keeps, as far as text goes; content models of xsd/ebutt_live.xsd; header and metadata as a whole, no entities; producer.py 35–59 in PropsPrint | C62 |
| AttrModel | xml:space, xml:lang, ttm:agent and ttm:role in bindings/__init__.py (copies and merge of tt, head, body, div, p, span, br), documents/ebutt3_segmentation.py 69–129, documents/ebutt3_splicer.py, documents/ebutt3.py 956–1012, bindings/converters/ebutt3_ebuttd.py; which elements are selected is a parameter | C63 |
| HeadModel | the attributes of tt: bindings/__init__.py 460–503 (copy, merge), 534–589, 611–628 (checks), validation/base.py 91–107, documents/ebutt3.py 283–304, 625–639, 696–715, 972–1012, documents/ebutt3_splicer.py 35–81, node/consumer.py 29–61, 129–151, node/handover.py 85–87; not the default of cellResolution (603–609); the nodes through NodeModel | C64 |
| ClassModel | utils.py 255–359 (AbstractStaticMember, validators, ANY, AutoRegisteringABCMeta), adapters/base.py 12–83, node/interface.py, carriage/interface.py, node/base.py 44–61, 115–132, carriage/base.py 25–41, 55–71; order of ancestors, abstract methods and attribute lookup as in Python 2.7; only refused classes are garbage collected | C65 |
| RetimeModel | node/delay.py 63–67, 101–228 | C19 |
| RingModel | utils.py 66–84, 108–196 (ring buffer, rotating file buffer, deleting thread) | C25 |
| NodeModel | node/*.py: seen memory, limit to one sequence, retiming, de-duplication (as identity on times), encoding, handover, re-sequencing, distribution, buffer delay | C20–C24, C40 |
| ManifestModel | carriage/filesystem.py (writer, reader, tail, message files), strings.py 61–64 | C27 |
| ClockModel | clocks/*.py | C37 |
| ConfigModel | config/__init__.py 68–71, config/node.py 340–398 | C41 |
| AdapterModel | adapters/*.py, config/adapters.py 6–22, utils.py 278–290 | C35 |
| TokenModel | utils.py 199–252 after tokenisation | C38 |
| SocketModel | twisted/websocket.py 76–414 and 423–619 | C36 |
| IdModel | bindings/validation/base.py 198–222 | C32 |
| TimelineModel | documents/ebutt3.py 96–150 for one document, bindings/validation/timing.py 263–268 | C48 |
| SegmentModel | documents/ebutt3_segmentation.py, the copy hooks of bindings/__init__.py and bindings/validation/{timing,content,base,presentation}.py | C31, C47, C51 |
| SpliceModel | documents/ebutt3_splicer.py, bindings/__init__.py 929–976, 1008–1019, 1089–1100 (merge) | C33, C51 |
| ResegModel | documents/ebutt3.py 542–561, 696–711, 956–1012 with the content of the documents, node/consumer.py 129–151 | C52 |
| PipeModel | node/encoder.py 35–48 on the documents of node/consumer.py 129–151 (composition of ResegModel, StyleModel and ConvertModel) | C55 |
| ProducerModel | node/producer.py 14–113, node/consumer.py 29–54, documents/ebutt3.py 389–394, 484–529, 698–715 (new documents), the results that validation leaves on elements (bindings/validation/timing.py 56–87, 149–229, presentation.py 84–97) | C56 |
| BackendModel | config/backend.py 11–253, config/carriage.py 13–46, 147–243, twisted/websocket.py 142–215, 265–343, 389–432, 509–560 (making factories), carriage/direct.py, carriage/websocket.py 10–25 | C53, C54 |
| DedupModel | node/deduplicator.py 51–222 (remove_duplication, CollateUniqueVals, AppendNewElements, ComparableElement, ReplaceStylesAndRegions); hash, str of a list and dictionary order are parameters | C34 |
| ConvertModel | bindings/converters/ebutt3_ebuttd.py, node/encoder.py 26–30, bindings/_ebuttdt.py 118–140 and 545–581, the content models of xsd/ebutt_d.xsd | C39, C49, C50 |
| StyleModel | bindings/__init__.py 76–425 and the styling side of the hooks, bindings/validation/presentation.py, the size types of bindings/_ebuttdt.py | C28–C30, C45, C46 |
| SizeModel | bindings/_ebuttdt.py 143–220, 439–685, xsd/ebutt_datatypes.xsd 13–131, bindings/converters/ebutt3_ebuttd.py 178–192; CPython 2.7 printing of floats with twelve digits | C67 |
| ValidModel | bindings/validation/base.py 176–222, bindings/validation/validator.py, bindings/pyxb_utils.py 94–145, bindings/validation/presentation.py, bindings/validation/timing.py 234–261 and 363–380, the hooks of bindings/__init__.py | C68 |
| ProxyModel | config/carriage.py 128–144, 167–243 (the proxy), config/backend.py 138–150, 238–254, scripts/ebu_simple_consumer.py 70–86, scripts/ebu_ebuttd_encoder.py 135–149 | C69 |
| ScheduleModel | config/node.py 97–156, config/backend.py 255–268, node/consumer.py 82–106 (constructor), clocks/local.py, utc.py, base.py 18–24; twisted's callLater and LoopingCall as documented | C70 |
| StartModel | config/backend.py 11–33, 100–102, 152–188, config/carriage.py 51–111, 204–223, carriage/filesystem.py 132–202, 205–218, 242–262, carriage/websocket.py 10–25, twisted/websocket.py 113–118, 142–178; the nodes are any machine | C71 |
| FindModel | utils.py 14–63, documents/ebutt3.py 176–260 (attributes of messages), 325–330, 919–920, documents/base.py 12–18, 48–58, documents/ebuttd.py 12–25; Python 2's operators, max, in and any sort by comparisons | C72 |
| AppModel | config/__init__.py 32–75, config/common.py 15–53, 84–91, config/backend.py 11–33, 42–102, 271–291, config/node.py 15–404, config/clocks.py, config/carriage.py 13–46, 51–111, 157–184, 204–281, config/adapters.py 14–22, node/consumer.py 82–106 (constructor), node/producer.py 61–63 | C73 |
| IdentModel | Identifiers outside ASCII in: strings.py (templates), documents/ebutt3.py 283–323, 486–500, 641–715, 959–1009, node/base.py 89–97, node/delay.py 33–79, node/deduplicator.py 34–49, node/handover.py 63–98, node/consumer.py 29–55, 129–151, node/producer.py 61–113, carriage/filesystem.py 132–202; str.format of Python 2.7 | C74 |
| PageModel | ui/user_input_producer/uip.js 3–24, 55–101, 172–279, 338–417, 473–505, 564–672 (without times and messages), index.html 93–115, 140, template/user_input_producer_template.xml (content of the span) | C75 |
| TimerModel | ui/user_input_producer/uip.js 29–35, 77–134, 440–447 (timers and the media clock) | C76 |
| RequestModel | ui/user_input_producer/uip.js 507–534, 685–704, template/live_message_template.xml | C77 |
| IntervalModel | ui/user_input_producer/uip.js 5, 77–101, 449–467, 594–600 | C78 |
| AddressModel | ui/user_input_producer/uip.js 306–307, 391–400, twisted/websocket.py 101–106, 219–230 | C79 |

## What is not modelled

XML parsing and serialisation (but for text: PrintModel, MessageModel), PyXB's schema validation (its effect on attribute values is modelled where a
pattern or range matters), Twisted's reactor and autobahn below their callbacks, the operating system beyond a
table of files, nltk, logging, the command line (`scripts`, but for the proxy), the user interface under `ui/` (but for what the user input producer sends and its clocks), `examples`, metadata
elements, and the configuration manager itself (configman). Binary floats are exact rationals in the size
arithmetic (StyleModel); the time types and the text of sizes model doubles exactly (TimeModel.rnd, SizeModel).

## Trusted base

* The Coq 8.16.1 kernel (and `coqchk` for the independent check).
* The faithfulness of the `*Model.v` files to `/repo` as read, and the third-party behaviour stated above and in
  the comments of the models.
* Axioms: none. `Print Assumptions` follows every theorem of the manifest in its `Props*.v`; every one answers
  "Closed under the global context". The checker lists seven axioms of the standard library that are merely
  loaded with it (through `Setoid`/`ring`): `Coq.ssr.ssrunder.Under_rel.{Under_rel, Under_rel_from_rel,
  Under_relE, Over_rel, over_rel, over_rel_done, under_rel_done}`. No theorem depends on them.

## Results

See `MANIFEST.json` for the theorems. What was found on the way, beyond the claims that hold:

### Sequence
* A document that arrives late and touches the next one poisons the timeline: a later insertion raises (C03).
* A late document without an end raises TypeError while being inserted (C03).
* A call of add_document that raises can already have removed documents: they are neither shown nor is the new one
  (C66_lost, C66_open). While that does not happen, the sequence presents the right documents in any order of delivery
  (C66_any_order).
* A resolved end time of zero is reported as None (C66_zero_end). A document whose end precedes its begin can come back when a
  later document is added, and looking up its end raises LookupError.

### Timing
* Times of zero count as unspecified (C15). Bad timing is detected by comparing attribute *text*, so begin "9s",
  end "10s" is "badly timed". A badly timed body gets begin 0 and no end, even before the availability time.

### Comparison of XML in tests
* compare_xml, the oracle of the tests that documents are not modified, does not see text moved over child elements such
  as `br`, nor the text of CDATA sections (C58_blind, C58_case_blind); it is exact where there is no mixed content
  (C58_exact).
* The false positive its comment gives (attributes of one name in two namespaces) does not occur (C58_namespaces,
  C58_case_docstring); documents that differ in a prefix only are found different (C58_case_prefix).
* It raises when only the second text has an XML declaration (C58_undeclared), or when a processing instruction or
  document type precedes the root (C58_prolog).

### Time codec
* An EBU-TT-D document with any `begin` or `end` cannot be read: its `tt` has no hook that notes the time base, which
  the time types look up (C57_ebuttd); the test class of
  XMLtoEBUTTDAdapter is an empty placeholder (adapters/test/test_document_data_adapters.py 138–143).
* A start of programme that does not fit the time base is accepted (C57_project_skipped); the project's scenario that
  wants it refused is marked to be skipped.
* A clock time set as text by program gets the wrong clock type as begin or end of a clock document and, with two hour
  digits, as dur of a media document (C57_set); a timedelta set as begin or end becomes
  "00:00:00:00" (C57_delta). `_post_timing_set_attribute` is never called, which has no effect on documents the schema
  allows, as metadata with times come before all timed elements.
* Durations strictly between 0 and 1 ms format as "0None"; counts of milliseconds above 2^53 lose precision;
  negative durations format illegally; SMPTE text converts to zero (C16).
* Text comparison of times orders limited clock values only (C18).

### Retiming
* A body with `dur` and no `begin` is not delayed (C19_dur_wrong); an `end` of zero becomes a real bound
  (C19_zero_end_wrong); limited clock times beyond 99 hours raise.

### Buffers and nodes
* The ring buffer with a callback and maxlen None or 0 raises IndexError; the deleting thread dies of OSError,
  for which only IOError is caught (C25).
* Nodes remember 100 numbers per sequence (C20). Retiming and de-duplication enter a foreign document in that
  memory before refusing it, so that its second arrival is dropped silently (C21_foreign_twice). De-duplicator
  and encoder drop messages. With clock mode "gps" a document cannot be made to time anything (get_clock gives
  None).
* Handover: the authors group control token of the selected sequence may fall without a switch; documents turned
  away are never reconsidered (C23).

### Carriage, adapters, configuration
* A comma in the sequence identifier breaks the manifest; non-ASCII text leaves an empty file without a line;
  documents of "A_msg" share names with messages of "A"; a restart overwrites messages (C27).
* The clock reading falls back a day at midnight (C37).
* `get_node` counts configured nodes, not slots; an unknown backend gives None; one websocket producer
  configuration cannot be constructed (C41).
* An adapter chain is only checked at its ends (C35_middle_unchecked); messages lose their availability time
  (C35_message_time_lost); conversion to EBU-TT-D hands over a document without content (C35_empty_ebuttd).
* Losing a refused connection raises in the websocket server (C36_exceptions).
* An output with the older websocket protocol never starts: its producer is made without its consumer argument
  (C53_legacy_output). An input with it asks for no channels and so hears nothing (C53_legacy_input). The case
  "address used by another protocol" of `ws_backend_producer` cannot arise (C53_refusals); the case "there is a
  producer from the server, use that" ends in ValueError before any client is made (C53_second).
* Servers are found by the text of the url: two spellings of one address fail at the port instead of sharing the
  server (C53_gateway).
* Of several direct inputs under one name only the last is served, without a warning (C54_fan_out_lost).

### Styles
* The region of an ancestor comes before the element's own region in inheritance (C29).
* A percentage on an element with a region, below percentages that are not settled yet, ignores the region
  (C30_region_lost).
* Leaving an element with a region resets the region to none instead of the enclosing one (C45_nested).
* Divs never leave the style stack, so that their styles are recorded as applicable to what follows (C46_leak).
* A pixel line height without extent is not reported as a missing extent but as a plain Exception. Copying a
  style omits multiRowAlign.
* Sizes of different types are compared as texts, those of one type as numbers without sign, so == is not transitive
  (C67_not_transitive), and an origin of -5% equals one of 5%.
* A cell resolution cannot be made from floats, though reading one gives floats (C67_refused).
* A style that no region or element refers to may refer to a style that is missing, or to itself; a pixel line height
  without extent is accepted as long as nothing uses it (C68_unused_style, C68_pixel_line_height).
* After a refused validation get_element_by_id does not say so: it knows the elements up to the fault (C68_half_way) and,
  where the extent of tt was refused, those of the validation before (C68_stale).
* Not modelled, but visible in the code: the region a div or p was validated with (`_validated_region`,
  presentation.py 176–185) is not reset when the attribute is removed and the document validated again.

### Starting
* A file input hands on its whole manifest before the reactor runs, when no websocket connection can be open yet; nothing
  is kept, so the connections of websocket outputs never get it (C71_lost). With a buffer delay it depends on the order of
  a set of objects (C71_order).
* A file input with the tail option keeps the reactor from running (C71_never): in
  examples/config/producer_resequencer_consumer_fs.json the producer and the re-sequencer never send anything.

### Identifiers outside ASCII
* ebuttp:sequenceIdentifier is any xs:string, but validate() puts it into a message for the log (ebutt3.py 495–500) that is a
  str, so with a character outside ASCII every valid document is refused with UnicodeEncodeError in Python 2 (C74_create).
* A producer, retiming or de-duplicating node configured with such an identifier starts and never sends a document; a
  handover or re-sequencing node sends documents that no node of the toolkit can read as XML (C74_rename, C74_produce,
  C74_hand_over, C74_segment, C74_carried, C74_file).
* A document with a wrong authors group outside ASCII raises UnicodeEncodeError, not UnexpectedAuthorsGroupError (C74_group).
* The other models have identifiers in ASCII.

### The page of the user input producer
* The button "Schedule" has no handler (index.html 115; uip.js only shows and hides it, 85, 91, 97), and keys send in the mode
  Live only, so nothing can be scheduled, although docs/source/user_input_producer.rst line 37 describes it
  (C75_never_scheduled, C75_scheduled_silent).
* Enter with an empty "Maximum lines", or one below 1, is an endless loop (652–654); the page hangs (C75_enter, C75_freeze).
* Text is put into the document without escaping (469–471), so "&", "<" and "]]>" do not arrive as typed (C75_text).
* Creating an identifier again starts its numbers again at 1 (368; C75_again). Numbers are also used up by documents that are
  not sent (C75_missing).
* The address is that of the sequence selected when connecting; documents have the sequence selected when sending
  (C75_misdirected).
* user_input_producer.rst lines 40–43 say that the number of lines does not exceed the setting. It can, if Enter is pressed
  while the connection is made: send raises before lines are removed (C75_lines, C75_lines_exceeded).
* The functions that update the running clocks are called by an interval and start a timeout for themselves each time (126,
  133), which nothing clears (29–35). From when the page is opened, before any choice of the user, each half second has one call more than
  the one before: 7200 in each after an hour (C76_opened, C76_grows, C76_never_less).
* The media clock is a duration formatted as an instant in local time (123), so "starting at 00:00:00.0"
  (user_input_producer.rst line 37) holds only where the offset of local time in 1970 was zero (C76_media).
* A request for control is taken out of its input while the connection is being closed, and lost (C77_lost). An empty one, and
  one without a selected sequence, are sent and raise where they are read (C77_refused).
* Sending at intervals goes on in the other modes, where its buttons cannot be seen (C78_goes_on, C78_other_mode).
* A sequence called "." or ".." can be created but not published: browsers take these segments out of the address,
  and the server drops the connection (C79_dots). Without a selected sequence the page connects to the sequence "null"
  (C79_distinct). All other identifiers arrive as they are (C79_arrives, C79_published, C79_subscribed). Assumed here, and not read, is hyperlink (splits at
  slashes, decodes each segment).

### Making an application
* docs/source/configurator.rst gives "local", "auto" and "clock" as clocks of a simple-producer and a re-sequencer (lines 96
  and 105). "clock" is refused, "utc" is not mentioned but works, and with "auto" a re-sequencer cannot be made
  (AttributeError) while a producer is made, started, and never sends anything (C73_case_documented, C73_auto). The "auto"
  given for the encoder (line 111) cannot be used with the default media_time_zero.
* The docstring of config/__init__.py promises that validation finds every wrong value. An unknown backend is an
  AttributeError (which two tests expect), because get_backend expects a KeyError from dict.get; an unknown adapter a
  TypeError (C73_backend, C73_why).
* An attempt that fails while nodes are made leaves its backend behind, so a corrected configuration is refused in the same
  process (C73_spoilt, C73_case_attempts).
* configurator.rst line 67 says that nodes are node1 to node9; node8 and node9 do not exist.

### Comparing documents
* `document == None`, and a comparison with any object without sequence identifier, raises AttributeError; the comment in
  ComparableMixin (utils.py 26–29) says that such comparisons are left to the other side, but the check comes before the
  try (C72_defined). An EBU-TT-D document cannot be compared, not with itself either (C72_ttd).
* get_document is documented to retrieve by sequence number and to raise KeyError; it takes a position and raises
  IndexError, and never gives the document with the number asked for (C72_get_never, C72_get_next).

### Proxies
* The proxy of a websocket-legacy input is documented, read and checked, but its connection is made without it
  (C69_connections); were it passed on, wsl_backend_consumer would split a dictionary.
* The scripts and the configurator read the address of a proxy differently: a protocol is ignored by one and a ValueError
  in the other (C69_agree). Neither takes IPv6 addresses (C69_colons, C69_split).

### Timeline and segments
* An element whose end precedes its begin is found by every lookup that reaches its begin, however late
  (C48_ends_before_begin).
* A segment shows what the original shows at every instant of the window only if text does not stand beside timed
  spans (C31_text_beside_timed_span), no element is "badly timed" by text (it becomes shown,
  C31_badly_timed_shown), no time reaches 100 hours (C31_hundred_hours), and the window does not end in its first
  millisecond (then the segment is endless, C31_first_millisecond). Times are cut to whole milliseconds, so at an
  instant the segment shows what the original shows at the last microsecond of that millisecond
  (C31_same_presentation); for times in whole milliseconds it is the instant itself (C31_same_presentation_ms).
* No segment at all is made of a document without styling or layout (C31_needs_head), outside the body's times
  (C31_needs_overlap), if a div inside the window has a style but no content inside it (KeyError,
  C31_idle_div_fails), if a div has a region and all its paragraphs have their own (C31_nested_region_fails), and of an endless leaf without an end to the window (C31_endless_fails).
  In all other cases of a validated document one is made (C31_made), and it has no empty element (C31_no_empty).
* Metadata, the role of br and multiRowAlign do not survive; an emptied body gets the window as its times.
* Where an element with a region stands inside another with a region, what follows it is in no region (C45); once it is
  outside the window, what follows is in the outer region in the segment (C51_nested_region). Without nested regions
  the computed styles and regions are those of the original (C51_segment).
* A segment can keep a style nothing in it refers to, left over from a div before the window (C47_left_over).

### Splicing
* The times of a body are dropped when another document follows (C33_body_times_lost), and so is the style of every
  body but the first (C33_body_style_lost). Segments have no times on a body with content, so nothing is lost for
  them but the style of the body.
* In the head a taken identifier gets ".1" once, without looking whether that is free (C33_head_clash), and
  references are not changed with it: text of the second document gets the style of the first
  (C33_reference_taken). Segments of different documents have no common identifiers (C32), so this is confined to
  other callers.
* From the third document on, every identifier of the content merged before is taken to be in conflict with itself
  and gets another ".1" (C33_renamed_needlessly).
* A document without body after one with a body raises AttributeError (C33_fails).

### Re-sequencing
* A document without styling or layout in its head cannot be cut; extract_segment logs this and leaves it out, so a
  valid document that should be on screen disappears (C52_layout_needed).
* The extent and cell resolution of tt are not compared when segments are joined, and those of the first are kept:
  sizes in pixels of later documents change (C52_sizes_change). When the first has no extent and a later one has
  sizes in pixels, the joined document does not validate; the exception leaves the node's window where it was, and
  it is raised again by every call (C52_stuck); the looping call makes no other, so nothing is ever sent again (C70_stops).
* The first segment does not begin at begin_output, as docs/source/configurator.rst says, but when the node was made; all
  segments are sent late by the time waited for begin_output (C70_begin_output, C70_exact).
* Calls before the first document send nothing and do not move the window, so each makes all segments one length later;
  nothing makes up for it (C70_late, C70_exact).
* A begin_output that is over is refused by an AssertionError of twisted, and the application does not start (C70_over).
* The windows go on past 24 hours, the times of documents begin again at 0: what arrives after midnight is never sent
  (C70_midnight, C70_missed).

### De-duplication
The theorems hold for a valid document with flat styles whose attribute values are ASCII and cannot be confused once
joined with percent signs, with at most one attribute of another namespace per element, when the strings hashed do
not collide, and when no list of references repeats a style inside a repetition of another. Outside of this:
* Repeated references are deleted at an index that an earlier deletion has made wrong: `style="y x x y"` raises
  IndexError (C34_index_error, C34_nested_fails), `style="y x x y z"` loses z (C34_reference_lost, C34_nested_loses).
* The references of a style to other styles are looked up before any style is known and become None
  (C34_style_reference; what PyXB makes of the None is not modelled).
* A value that is not ASCII, such as a font family, raises in str (C34_non_ascii).
* Two attributes of other namespaces are joined with nothing in between, so different styles can be merged
  (C34_foreign_confused); in another order equal ones are not found (C34_case_foreign_order). The value "|" counts as
  absent (C34_case_bar).
* Two regions that differ only in a repeated reference both stay and are then alike (C34_case_region_twins).
* A print statement is left in (line 58).

### Conversion to EBU-TT-D
* The times of body and div are dropped without being handed down: what begins after five seconds is presented from
  the start (C39_body_times_lost, C39_div_times_lost). The style of body is dropped as well.
* In the clock time base the offset of an element inside a timed element is converted like a time of day: conversion
  fails (C39_nested_fails), or the difference between the clocks is applied twice (C39_nested_wrong).
* A div in a div and a span in a span are legal in EBU-TT Live and make conversion fail (C39_nested_elements). So does a
  time before media_time_zero (C39_before_zero).
* Only the height of a font survives: 2c by 3c becomes the same as 3c (C49_width_lost). A line height is lost where the
  font size is that of the element around (C49_line_lost), and where two elements change the size by the same factor,
  both get the line height of the last, even one without any (C49_line_taken): the generated style is shared.
* References from style to style are dropped, as the EBU-TT-D type has no such attribute, and nothing is put in their
  place (C50_chain_lost). So are the style of body (C50_body_lost) and multiRowAlign, which the type has
  (C50_rows_lost).
* Not modelled, but visible in the code: the converted p or span is given the very list object of the source's style
  attribute, and `_fix_fontsize` inserts into it, so (with PyXB 1.2.6, which keeps a value that already has the right
  type) conversion changes the document converted.
* A region with its origin left of or above the screen ("-1c 2c") is put inside it: reading a position drops the sign
  (C67_sign, C67_region_sign). A position or size in cells that is less than 0.0001% but not zero is printed with an
  exponent, which the schema refuses, so the conversion raises (C67_region).
* After re-sequencing, a paragraph with text beside spans has no times of its own, so the encoder's output shows its
  text at all times, in every document made from it (C55_mixed_text).
* SimpleProducer takes a sequence number before it looks at the lines: an empty
  list of lines raises IndexError (`end_list.pop()`), and a time in or after the
  hundredth hour TimeFormatOverflowError, each leaving a gap in the numbers; the
  lines are lost (C56_gap, C56_lost).
* A verbose consumer fails on documents with metadata in p or span, where facets are put: `content_to_string` is called
  on the metadata, which has none. The document is stored all the same, but the next one that ends it is lost, and
  nothing is on screen from where that should have begun (C59_lost).
* "Document discarded" is logged with the elements that begin before the time the document is discarded at, which is no
  later than its begin: as a rule there are none, so that nothing is logged (C59_discarded). A document without end is
  logged without times (C59_range), and where the range begins after the end of an element it is printed upside down
  (C59_case_over).
* The XML adapter takes every message for a control request: one of another type is handed on with the type
  authorsGroupControlRequest by every node that reads it (C60_type), where the base class has a table of types and raises
  KeyError. The availability time it is given for a message is dropped (C60_roundtrip).
* Only the first item of the payload is read. A payload laid out as an element on a line of its own becomes the white
  space before the element (C60_first, C60_case_type). An empty payload, which the user interface can send, raises
  IndexError in every node that reads it (C60_empty).
* A retiming node gives its documents a new sequence identifier but leaves messages under the old one, and the
  de-duplicating node drops messages (C60_way, C60_lost).
* Keyword arguments go from node to node by direct carriages and are not kept up to date. A distributor joined directly
  to a retiming, de-duplicating or handover node that reads XML sends the XML from before their work, because raw_xml
  still comes along (C61_undone, C61_undone_far). A pair of adapters ebutt3->xml and xml->ebutt3 mends it
  (C61_case_mended).
* Two buffer delay nodes joined directly raise TypeError for every document, since delay is given twice; likewise an
  encoder that reads the text of a distributor directly, since time_base is (C61_buffers, C61_encoder).
* The direct carriage accepts all types, so no combination of nodes is refused at the start (C61_starts). Text for a node
  that expects documents is dropped in silence, passed through or raises, depending on the node (C61_text).
* A buffer delay node between the filesystem and a websocket loses the sequence identifier: documents go out as
  'default' (C61_default).
* Read in examples/config, without a theorem: user_input_producer_retiming_consumer.json retimes to RetimedSequence1
  while its consumer subscribes to TestSequence1, so that nothing reaches it; resequencer_deduplicator_consumer_fs.json
  is not well-formed JSON. The chains of the other examples pass the check of C61 (C61_case_project).
* toprettyxml puts every child of a mixed p or span on its own line, so that white space appears between texts that touch:
  a word with a part of it in a span becomes two words, a span followed by a full stop gets a blank before it
  (C62_case_half, C62_case_stop). With xml:space="preserve" white space is shown before and after every child and grows
  with each carriage (C62_grows, C62_case_song). C62_carried says exactly which documents are safe; those of the simple
  producer are (C62_producer). Where other theorems (C33, C52, C55, C61) speak of documents handed on, these are the
  documents in memory, or reading is assumed to give back what was written.
* tt's copy leaves out xml:space (bindings/__init__.py 460–480), so a document that preserves white space on tt loses it in
  segments, while the conversion keeps it (C63_spaced, C63_case_space).
* A window with documents of different languages comes out in the language of the first, and with the agent and role of
  its body: a text is then labelled with a language it is not in (C63_resegmented, C63_case_joined, C63_case_other).
  Sequences do not compare languages.
* Agents are declared in metadata, which segments and EBU-TT-D documents lose, while the references to them are kept and
  dangle (C63_agents). convert_div drops role, br's role is lost everywhere (C63_converted, C63_breaks).
* An empty document on time base smpte is never valid, since nothing sets frameRate, dropMode and markerMode. new_document
  of such a sequence raises SemanticValidationError, and a re-sequencer that comes to a window without content raises it at
  every call and does not go on (C64_own, C64_stall, C64_case_stall).
* The handover node checks each author against the author's own earlier documents only. When it switches between authors on
  different time bases or clock modes, the next node refuses the documents of the second (C64_handover,
  C64_case_handover).
* Clock mode gps is valid but has no clock: the first such document makes a consumer or re-sequencer raise AttributeError
  for everything that follows (C64_gps). Seen for the handover node in C23_gps.
* bindings/__init__.py 585 reports a clockMode that should not be there as missing (C64_case_rules). ebutt3.py 285 compares
  texts with `is`, so the default clock mode depends on where the text came from (C64_case_constructor).
* A repeated number is passed over before the authors group is looked at, so documents of another group can go unnoticed
  (C64_case_numbers).
* Members asked for with AbstractStaticMember are checked only against the bodies of the direct bases. Nodes and carriages
  derive from AbstractXNode and AbstractXCarriage, which ask for nothing, so none of them is checked; one without _expects
  or _provides can be defined and made, and raises TypeError when it is connected (C65_leftover, C65_gap,
  C65_case_connect). Of the classes of the toolkit the five data adapters and the two node-carriage adapters are checked
  (C65_case_checked).
* Adapters register only if they derive from IDocumentDataAdapter directly; one derived from an adapter is not found
  (C65_unregistered, C65_case_registry).
* An adapter registers before all its bases are checked. If the class is refused after that it is still found, keeps a
  correct adapter for the same types out, and leaves none when it is collected (C65_ghost).
* An adapter that provides ANY makes a second one for the same input raise KeyError, in either order, since `in keys()`
  compares with == and the warning then looks the key up (C65_any). The default validator refuses ANY, which equals None
  (C65_case_refusal).
