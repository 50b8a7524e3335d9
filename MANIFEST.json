{
 "claims": [
  {
   "property": "C01",
   "status": "proved",
   "theorems": [
    "C01_serialize_parse",
    "C01_end_of_buffer_refuted"
   ],
   "note": "For every well-formed value followed by white space and a word, or ending the buffer when it has a closing delimiter. The _end_of_buffer_refuted theorem shows why the side condition is needed: a number at the very end of the buffer is read as raw bytes."
  },
  {
   "property": "C02",
   "status": "proved",
   "theorems": [
    "C02_token_bounds",
    "C02_token_local",
    "C02_progress",
    "C02_parse_local"
   ],
   "note": ""
  },
  {
   "property": "C03",
   "status": "proved",
   "theorems": [
    "C03_token_stable"
   ],
   "note": ""
  },
  {
   "property": "C04",
   "status": "proved",
   "theorems": [
    "C04_serialized_token"
   ],
   "note": ""
  },
  {
   "property": "C05",
   "status": "partial",
   "theorems": [
    "C05_parse_terminates_refuted",
    "C05_parse_terminates_partial",
    "C05_fuel_adequate"
   ],
   "note": "Refuted by a stray ']'. Proved for texts without ']' and without the word 'stream' (decoding can diverge by itself, see C13_columns_refuted)."
  },
  {
   "property": "C06",
   "status": "partial",
   "theorems": [
    "C06_reference_text",
    "C06_generation_refuted",
    "C06_references_partial"
   ],
   "note": "The written form carries both numbers and parsing keeps the object number at any place; the generation is replaced by 0 (refuted for a non-zero generation)."
  },
  {
   "property": "C07",
   "status": "partial",
   "theorems": [
    "C07_literal_string_refuted",
    "C07_literal_string_partial"
   ],
   "note": "Refuted when an escaped backslash precedes a parenthesis; proved for all other literal strings."
  },
  {
   "property": "C08",
   "status": "proved",
   "theorems": [
    "C08_dictionary_pairs"
   ],
   "note": ""
  },
  {
   "property": "C09",
   "status": "partial",
   "theorems": [
    "C09_retarget_refuted",
    "C09_retarget_partial",
    "C09_streams_untouched"
   ],
   "note": "Proved for all values without streams; streams are proved to be left untouched, so the claim fails inside streams (refuted)."
  },
  {
   "property": "C10",
   "status": "partial",
   "theorems": [
    "C10_detect_partial",
    "C10_detect_refuted"
   ],
   "note": "Proved for every value that is not itself a reference; for a bare reference the function returns None."
  },
  {
   "property": "C11",
   "status": "proved",
   "theorems": [
    "C11_single_filter",
    "C11_no_filter",
    "C11_ascii85"
   ],
   "note": ""
  },
  {
   "property": "C12",
   "status": "partial",
   "theorems": [
    "C12_pipeline_refuted",
    "C12_decode_partial",
    "C12_encode_partial"
   ],
   "note": "Refuted; exact behaviour proved: encode applies the filters left to right, decode applies only the last one to the raw bytes."
  },
  {
   "property": "C13",
   "status": "proved",
   "theorems": [
    "C13_predictor_up",
    "C13_flate_predictor",
    "C13_columns_refuted"
   ],
   "note": "Any tag bytes, any width, any rows, through decode_stream too; additionally /Columns -1 is shown to diverge."
  },
  {
   "property": "C14",
   "status": "partial",
   "theorems": [
    "C14_length_partial",
    "C14_length_refuted"
   ],
   "note": "Refuted: /Length is always one more than the number of bytes written. The exact effect of forge_stream is proved."
  },
  {
   "property": "C15",
   "status": "partial",
   "theorems": [
    "C15_stream_roundtrip_partial",
    "C15_stream_roundtrip_refuted"
   ],
   "note": "Proved for non-empty content that does not contain 'endstream' nor end with CR, whatever surrounds the stream; each exclusion is refuted by an example."
  },
  {
   "property": "C16",
   "status": "proved",
   "theorems": [
    "C16_table_written",
    "C16_table_roundtrip"
   ],
   "note": "Success and exact readback, for entries whose fields print in 10/5 digits (elem_ok); proved at any place of a file and through read_section."
  },
  {
   "property": "C17",
   "status": "proved",
   "theorems": [
    "C17_overflow",
    "C17_stream_written",
    "C17_stream_roundtrip"
   ],
   "note": "Success and exact readback when the fields fit in the chosen width. C17_overflow: the width comes from the greatest offset only, so e.g. the free head (generation 65535) cannot be written when all offsets are below 255."
  },
  {
   "property": "C18",
   "status": "proved",
   "theorems": [
    "C18_free_list"
   ],
   "note": ""
  },
  {
   "property": "C19",
   "status": "proved",
   "theorems": [
    "C19_revision_layout"
   ],
   "note": "All change lists with distinct positive numbers; embedded objects are described through their container. Side conditions are stated on the input index and cache."
  },
  {
   "property": "C20",
   "status": "partial",
   "theorems": [
    "C20_entry_size_refuted"
   ],
   "note": "Refuted for every entry: exactly 19 bytes."
  },
  {
   "property": "C21",
   "status": "proved",
   "theorems": [
    "C21_expand_index",
    "C21_odd_index",
    "C21_count_zero_refuted"
   ],
   "note": "For all index arrays with counts >= 1; count 0 and odd arrays are characterised separately."
  },
  {
   "property": "C22",
   "status": "proved",
   "theorems": [
    "C22_single",
    "C22_length",
    "C22_all"
   ],
   "note": ""
  },
  {
   "property": "C23",
   "status": "partial",
   "theorems": [
    "C23_continuous_refuted",
    "C23_at_zero_partial",
    "C23_view_partial"
   ],
   "note": "Refuted at every position > 0; proved at position 0, and the exact bytes seen in CONTINUOUS mode are given."
  },
  {
   "property": "C24",
   "status": "proved",
   "theorems": [
    "C24_composite"
   ],
   "note": "At the joints themselves (offset 0 of an update) the provider reads the older layer; the theorem covers all other positions."
  },
  {
   "property": "C25",
   "status": "partial",
   "theorems": [
    "C25_read_your_writes_partial",
    "C25_refuted"
   ],
   "note": "Refuted through the API for a file with an object stream. Proved for an object that is neither in an object stream nor an object stream holding live objects, in any document whose object streams are coherent with its index (all documents without object streams are), after any sequence of reads."
  },
  {
   "property": "C26",
   "status": "partial",
   "theorems": [
    "C26_reads_independent_partial",
    "C26_plain",
    "C26_refuted"
   ],
   "note": "Refuted through the API for a superseded member of an object stream. Proved for every coherent document, in particular every document without object streams."
  },
  {
   "property": "C27",
   "status": "partial",
   "theorems": [
    "C27_changes_exact_partial",
    "C27_pending_changes",
    "C27_first_revision",
    "C27_refuted"
   ],
   "note": "Proved for the pending changes of every document and for every revision but the first of a document with several revisions; refuted for revision 0, which is compared with the last one."
  },
  {
   "property": "C28",
   "status": "partial",
   "theorems": [
    "C28_nothing_pending",
    "C28_commit_partial",
    "C28_sessions",
    "C28_sessions_partial",
    "C28_deletions_refuted"
   ],
   "note": "Proved for every document made from blank by reads, updates, deletions, additions and commits (C28_sessions) and for any document satisfying the invariant `ready`, which loaded documents are checked to satisfy and sessions preserve. The trailer and the xref stream object, rewritten by design, are excepted from the value claim. C28_deletions_refuted: in a document loaded from a file with an xref stream, a revision that only deletes objects cannot be committed or written, an UnboundLocalError is raised."
  },
  {
   "property": "C29",
   "status": "partial",
   "theorems": [
    "C29_add_fresh_partial",
    "C29_none_refuted",
    "C29_refuted"
   ],
   "note": "Proved for any sequence of additions of values other than None to a coherent document whose cache has one cell per object; None cannot be read back, and after compress() the cache is one cell short, so that add_object raises (both refuted through the API)."
  },
  {
   "property": "C30",
   "status": "partial",
   "theorems": [
    "C30_original_bytes_partial",
    "C30_written_bytes",
    "C30_refuted"
   ],
   "note": "Every written output is a prefix of all later outputs, for any sequence of api calls. The original bytes up to the last %%EOF and its line ends are kept when the newest trailer has no /XRefStm and the marker is in the last 100 bytes; C30_refuted: with /XRefStm the last revision can be dropped."
  },
  {
   "property": "C31",
   "status": "proved",
   "theorems": [
    "C31_write_load",
    "C31_blank"
   ],
   "note": "Proved for every document made from a new one (blank in particular) by reads, additions and updates of savable objects, commits, and by saving and reloading; objects that are object streams are left out. Sizes below 10^10 bytes, since offsets have ten digits. Values compared up to the order of dictionary entries; the trailers agree except for /Prev."
  },
  {
   "property": "C32",
   "status": "partial",
   "theorems": [
    "C32_deleted_partial",
    "C32_refuted"
   ],
   "note": "Refuted: free entries are skipped when loading, so the deleted object comes back. Proved: the deletion holds in the document that writefile returns."
  },
  {
   "property": "C33",
   "status": "partial",
   "theorems": [
    "C33_rewind_commit",
    "C33_rewinds",
    "C33_objects_partial",
    "C33_open",
    "C33_refuted"
   ],
   "note": "The exact index of n successive rewinds is given for all documents; the values for documents made from blank or squashed documents by edits, commits, saves and reloads. Partial because rewind fails when the trailer dictionary holds the word 'trailer' (refuted), so the values are stated whenever rewind returns."
  },
  {
   "property": "C34",
   "status": "partial",
   "theorems": [
    "C34_update",
    "C34_add",
    "C34_program",
    "C34_commit_partial",
    "C34_force_partial",
    "C34_group_partial",
    "C34_force_refuted",
    "C34_group_refuted",
    "C34_commit_refuted"
   ],
   "note": "update_object, add_object and reading: proved for any program over any set of documents that share objects (C34_program). force_xref_stream, group_obj_into_stream and commit are refuted; the _partial theorems say which objects they can change: the /Filter of the shared trailer, the env_num of entries of the last row, and for commit nothing but the cache of the input (nothing at all once the catalog is cached), provided the first revision does not hold xref_stream_num = -1 and no object stream is under construction. Missing: the effect of commit when xref_stream_num is -1."
  },
  {
   "property": "C35",
   "status": "partial",
   "theorems": [
    "C35_squash_partial",
    "C35_squash_succeeds",
    "C35_streams_refuted",
    "C35_twice_refuted",
    "C35_dangling_refuted"
   ],
   "note": "Exact result and success proved for editable documents without null objects whose cells carry their own numbers. Refuted: references in stream dictionaries are not renamed, squashing twice fails, references to deleted objects reach other objects."
  },
  {
   "property": "C36",
   "status": "partial",
   "theorems": [
    "C36_refuted",
    "C36_kept_partial",
    "C36_lost",
    "C36_compress_refuted"
   ],
   "note": "Refuted: the trailer of the squashed document only keeps /Root. C36_kept_partial: metadata is kept exactly when there is none. C36_lost: the metadata of a squashed document is always empty. C36_compress_refuted: the command compress loses the metadata too."
  },
  {
   "property": "C37",
   "status": "partial",
   "theorems": [
    "C37_flat_page_tree_partial",
    "C37_pages_partial",
    "C37_refuted"
   ],
   "note": "Proved for every well-formed tree and any content of the shared default dictionary (empty for the first call). Refuted over several documents: the attributes of the root of an earlier document are inherited by the next one."
  },
  {
   "property": "C38",
   "status": "proved",
   "theorems": [
    "C38_rotate",
    "C38_rotations_compose",
    "C38_angle_range"
   ],
   "note": "For documents without object streams (an update inside an object stream is lost, C25_refuted). Angles are integers or absent."
  },
  {
   "property": "C39",
   "status": "proved",
   "theorems": [
    "C39_remove_pages",
    "C39_remove_succeeds",
    "C39_keep_pages"
   ],
   "note": "For documents without object streams, trees with right /Count and /Parent, and pages from which the tree is only reached through /Parent and /P. All iteration orders of the sets. Also which objects are deleted and that nothing else changes."
  },
  {
   "property": "C40",
   "status": "partial",
   "theorems": [
    "C40_concat_partial",
    "C40_inheritance_refuted",
    "C40_parent_refuted"
   ],
   "note": "Order of the pages, page count, renamed copies and unchanged objects proved for both target choices. Refuted parts: inherited attributes of the target's root leak into the appended pages, and the appended root gets no /Parent."
  },
  {
   "property": "C41",
   "status": "proved",
   "theorems": [
    "C41_key_pages",
    "C41_getitem",
    "C41_getitem_succeeds"
   ],
   "note": "Selection of the pages for all keys, and its effect through keep_pages and remove_pages under the hypotheses of C39."
  },
  {
   "property": "C42",
   "status": "partial",
   "theorems": [
    "C42_dependencies_partial",
    "C42_terminates_partial",
    "C42_cycles_diverge",
    "C42_refuted"
   ],
   "note": "Exact when it ends; it ends exactly when no cycle is reached; refuted by an array with a reference to itself."
  },
  {
   "property": "C43",
   "status": "proved",
   "theorems": [
    "C43_length",
    "C43_injective",
    "C43_table"
   ],
   "note": "Length and injectivity on the defined range, and the table against an independent one."
  },
  {
   "property": "C44",
   "status": "proved",
   "theorems": [
    "C44_unescape",
    "C44_writers",
    "C44_raises",
    "C44_octal_raises",
    "C44_iso_refuted"
   ],
   "note": "All escape forms of the statement. The octal escapes with fewer than three digits and the escaped line ends, which the standard also has, are shown not to be handled (_iso_refuted, outside the statement)."
  },
  {
   "property": "C45",
   "status": "proved",
   "theorems": [
    "C45_notations",
    "C45_utf16",
    "C45_pdfdoc",
    "C45_lowercase_refuted"
   ],
   "note": "Both encodings. Lower-case hexadecimal byte order marks are shown not to be recognised (_lowercase_refuted, outside the statement)."
  },
  {
   "property": "C46",
   "status": "partial",
   "theorems": [
    "C46_operator_first_partial",
    "C46_operand_first_refuted",
    "C46_effect_refuted"
   ],
   "note": "Holds exactly when the first token is an operator; otherwise the first command is proved to be returned twice."
  },
  {
   "property": "C47",
   "status": "proved",
   "theorems": [
    "C47_save_restore",
    "C47_text_refuted"
   ],
   "note": "The matrix stack is restored by every balanced q...Q. The text parameters are shown not to be restored (_text_refuted, outside the statement)."
  },
  {
   "property": "C48",
   "status": "proved",
   "theorems": [
    "C48_monoid",
    "C48_composition",
    "C48_cm",
    "C48_Td",
    "C48_Td_adds",
    "C48_TD",
    "C48_newline",
    "C48_dquote",
    "C48_Tm_BT",
    "C48_parameters",
    "C48_text_space"
   ],
   "note": ""
  },
  {
   "property": "C49",
   "status": "partial",
   "theorems": [
    "C49_cid",
    "C49_simple",
    "C49_empty_refuted",
    "C49_empty"
   ],
   "note": "Both array forms proved for CID fonts, simple fonts proved; an empty array of widths is refuted."
  },
  {
   "property": "C50",
   "status": "proved",
   "theorems": [
    "C50_bracket_diverges",
    "C50_tiling"
   ],
   "note": "Tiling for every file on which the scan returns. C50_bracket_diverges: a ']' at a region start makes the scan loop for ever."
  },
  {
   "property": "C51",
   "status": "proved",
   "theorems": [
    "C51_dangling"
   ],
   "note": ""
  },
  {
   "property": "C52",
   "status": "proved",
   "theorems": [
    "C52_unindexed"
   ],
   "note": ""
  },
  {
   "property": "C53",
   "status": "proved",
   "theorems": [
    "C53_lines",
    "C53_whole"
   ],
   "note": ""
  },
  {
   "property": "C54",
   "status": "partial",
   "theorems": [
    "C54_page_partial",
    "C54_object",
    "C54_refuted",
    "C54_type_refuted",
    "C54_name_refuted",
    "C54_cut",
    "C54_stream"
   ],
   "note": "Proved for the whole page of browse when comments, xref keywords, /Type strings, version, page count and file name contain no '<'; any object, string or stream may. Refuted otherwise. Which streams are shown, and that they read as their content, is proved (C54_stream)."
  },
  {
   "property": "C55",
   "status": "proved",
   "theorems": [
    "C55_update_version"
   ],
   "note": "Strings in lexicographic order, for documents without object streams."
  },
  {
   "property": "C56",
   "status": "partial",
   "theorems": [
    "C56_closed_partial",
    "C56_loops",
    "C56_refuted"
   ],
   "note": "Refuted, and exactly: link returns when every '](' has a later ')', and never returns otherwise."
  },
  {
   "property": "C57",
   "status": "partial",
   "theorems": [
    "C57_cycle_refuted",
    "C57_terminates_partial",
    "C57_fuel_irrelevant"
   ],
   "note": "Refuted by a section whose /Prev is itself (for every amount of fuel). Proved when the back pointers of the reachable sections decrease."
  },
  {
   "property": "C58",
   "status": "proved",
   "theorems": [
    "C58_index_rows"
   ],
   "note": ""
  },
  {
   "property": "C59",
   "status": "proved",
   "theorems": [
    "C59_indirect_roundtrip"
   ],
   "note": ""
  },
  {
   "property": "C60",
   "status": "proved",
   "theorems": [
    "C60_following_position"
   ],
   "note": ""
  },
  {
   "property": "C61",
   "status": "partial",
   "theorems": [
    "C61_literal",
    "C61_hex",
    "C61_onebyte_refuted",
    "C61_nosection_refuted"
   ],
   "note": "Proved for two-byte codes and literal/hex strings; one-byte ranges and streams without sections are refuted."
  },
  {
   "property": "C62",
   "status": "partial",
   "theorems": [
    "C62_literals_partial",
    "C62_hex_wrong",
    "C62_ascii_partial",
    "C62_hex_refuted"
   ],
   "note": "Proved between all literal notations of any bytes, and the exact text for ASCII; refuted for hexadecimal strings, in general."
  },
  {
   "property": "C63",
   "status": "partial",
   "theorems": [
    "C63_strings",
    "C63_advance_partial",
    "C63_zero_refuted"
   ],
   "note": "Exact width proved, with the extra fifth of a space per adjustment; refuted for an adjustment of 0."
  },
  {
   "property": "C64",
   "status": "partial",
   "theorems": [
    "C64_fragments_partial",
    "C64_position_partial",
    "C64_quote_refuted"
   ],
   "note": "Proved for Tj and TJ (count, order and both positions); refuted for the quote operators."
  },
  {
   "property": "C65",
   "status": "partial",
   "theorems": [
    "C65_parts_partial",
    "C65_joined_refuted"
   ],
   "note": "C65_parts_partial: any number of streams, divided between tokens of the syntax of C99, when white space or a delimiter stands on one side of each division. C65_joined_refuted: otherwise two words become one."
  },
  {
   "property": "C66",
   "status": "partial",
   "theorems": [
    "C66_object_stream_partial",
    "C66_refuted"
   ],
   "note": "Proved for every non-empty list of well-formed values that are not bare references; refuted with a bare reference. The reading of the written form is proved when the stream is storable (the conditions of C15: its encoded form is not empty, has no 'endstream' and decodes to its content)."
  },
  {
   "property": "C67",
   "status": "partial",
   "theorems": [
    "C67_linearized_partial",
    "C67_refuted",
    "C67_two_comments_refuted"
   ],
   "note": "Proved with exactly one comment before the first object, which is written as serialize_fragment writes it; refuted without a comment and with two."
  },
  {
   "property": "C68",
   "status": "partial",
   "theorems": [
    "C68_first_pages_partial",
    "C68_refuted"
   ],
   "note": "Proved for page trees where no node, after the first page of its parent, crosses the limit (fits); refuted by a nested tree with limit 2, where 4 pages are returned."
  },
  {
   "property": "C69",
   "status": "proved",
   "theorems": [
    "C69_in_use"
   ],
   "note": ""
  },
  {
   "property": "C70",
   "status": "proved",
   "theorems": [
    "C70_metadata"
   ],
   "note": "Entries are text strings (PBytes with a text_string result), null or absent; entries of another type are outside of the statement."
  },
  {
   "property": "C71",
   "status": "partial",
   "theorems": [
    "C71_edit_saved_partial",
    "C71_refuted"
   ],
   "note": "Refuted for a loaded file whose last revision only frees objects: no revision is open, nothing is written. Proved for all documents covered by C31."
  },
  {
   "property": "C72",
   "status": "partial",
   "theorems": [
    "C72_links_partial",
    "C72_refuted"
   ],
   "note": "Proved except for lines that start with a link and end with '!', where it is refuted. Texts between links contain no square bracket."
  },
  {
   "property": "C73",
   "status": "partial",
   "theorems": [
    "C73_code_partial",
    "C73_refuted",
    "C73_inline_partial"
   ],
   "note": "Proved for code spans, unmarked text and emphasis with one, two or three marks; refuted for a single character after the closing mark."
  },
  {
   "property": "C74",
   "status": "partial",
   "theorems": [
    "C74_blocks_partial",
    "C74_refuted",
    "C74_quotes_partial",
    "C74_quotes_refuted"
   ],
   "note": "Proved for paragraphs, titles, code blocks, flat lists, tables and quotations of plain lines, followed by empty lines (C74_quotes_partial holds C74_blocks_partial); refuted by the line after a list or a quotation, by the paragraph above an underlined title, by a tab, and by blocks inside a quotation."
  },
  {
   "property": "C75",
   "status": "proved",
   "theorems": [
    "C75_ends"
   ],
   "note": "Python's recursion limit is not modelled."
  },
  {
   "property": "C76",
   "status": "partial",
   "theorems": [
    "C76_paragraphs_partial",
    "C76_refuted"
   ],
   "note": "Proved for plain paragraphs that are followed by an empty line, with lines joined as the code does; refuted otherwise."
  },
  {
   "property": "C77",
   "status": "partial",
   "theorems": [
    "C77_code_partial",
    "C77_refuted",
    "C77_fence_partial"
   ],
   "note": "No markup for all strings; fenced blocks are shown verbatim by render_html when there is no '&'; refuted with '&lt;'."
  },
  {
   "property": "C79",
   "status": "proved",
   "theorems": [
    "C79_used_in"
   ],
   "note": "For indexes in which a position belongs to one number."
  },
  {
   "property": "C80",
   "status": "partial",
   "theorems": [
    "C80_cross_partial",
    "C80_refuted"
   ],
   "note": "Proved for the cross map; refuted for legal files with dangling references or objects out of the index."
  },
  {
   "property": "C81",
   "status": "partial",
   "theorems": [
    "C81_texts_partial",
    "C81_page_text_partial",
    "C81_refuted"
   ],
   "note": "Proved for every result that is returned; refuted by a page with one letter (ZeroDivisionError). Numbers are exact rationals in the model."
  },
  {
   "property": "C82",
   "status": "partial",
   "theorems": [
    "C82_page_partial",
    "C82_refuted"
   ],
   "note": "Proved when sizes are positive, fragments of two characters have a positive width, a fragment of each dominant size has two characters and no coordinate is -1 (with the success of the function). Refuted with a coordinate of -1. Which of several equally frequent distances is chosen is not stated."
  },
  {
   "property": "C83",
   "status": "proved",
   "theorems": [
    "C83_list_streams"
   ],
   "note": "Both directions, with the order and the absence of duplicates."
  },
  {
   "property": "C84",
   "status": "partial",
   "theorems": [
    "C84_apply_filter_partial",
    "C84_image_refuted",
    "C84_no_filter_refuted",
    "C84_array_refuted",
    "C84_parms_refuted"
   ],
   "note": "Proved for streams with one filter name or none, without /DecodeParms, and a supported new filter (or removal of an existing one). A stream with an unsupported filter is in the theorem with the contents the model gives it, an error message in place of data: C84_image_refuted. Four refutations."
  },
  {
   "property": "C85",
   "status": "partial",
   "theorems": [
    "C85_annotation_partial",
    "C85_refuted",
    "C85_text_refuted"
   ],
   "note": "Proved for pages without /Annots or with an indirect array; refuted for a direct array and, for the written text, by unbalanced parentheses."
  },
  {
   "property": "C86",
   "status": "partial",
   "theorems": [
    "C86_page_contents_partial",
    "C86_refuted"
   ],
   "note": "Proved for all pages with /Contents; refuted by the page of a blank document."
  },
  {
   "property": "C87",
   "status": "proved",
   "theorems": [
    "C87_blank"
   ],
   "note": "All names of the table, and the error for all others."
  },
  {
   "property": "C88",
   "status": "partial",
   "theorems": [
    "C88_compress_partial",
    "C88_shrunk_refuted",
    "C88_overwrites_refuted"
   ],
   "note": "Proved for documents without object streams or xref streams, from the document to the file read again; streams with no filter or one supported filter, without parameters; the file is supposed longer than 100 bytes, shorter than 10^10, and its stored bytes free of 'endstream'. Refuted for documents read from a compressed file with a gap in the numbers (an error, or live objects lost). References in dictionaries of streams are not renumbered: see C35."
  },
  {
   "property": "C89",
   "status": "partial",
   "theorems": [
    "C89_packed_partial",
    "C89_table_refuted"
   ],
   "note": "Proved for first revisions with one object stream, written with an xref stream; later revisions with xref streams are missing. Same hypotheses on the stored bytes as C88. C89_table_refuted: when the file has an xref table, the grouped objects are listed in it at their rank in the object stream, and are lost."
  },
  {
   "property": "C90",
   "status": "partial",
   "theorems": [
    "C90_fonts_partial",
    "C90_table",
    "C90_inherited_refuted",
    "C90_indirect_refuted",
    "C90_nameless_refuted",
    "C90_twice_refuted"
   ],
   "note": "Proved when every page has its own /Resources with a direct /Font dictionary whose entries are references to fonts with a name and a type. Refuted for inherited resources, an indirect /Font dictionary, fonts of type 3 without a name (an error each), and a font with two names on a page (the page is counted twice)."
  },
  {
   "property": "C91",
   "status": "partial",
   "theorems": [
    "C91_page_text_partial",
    "C91_fragments_partial",
    "C91_refuted"
   ],
   "note": "Proved with the hypotheses of C90 on the fonts of the page and those of C86 on its contents; the layout is that of C81. Refuted for a page with inherited resources (an error)."
  },
  {
   "property": "C92",
   "status": "partial",
   "theorems": [
    "C92_listing_partial",
    "C92_embedded_refuted",
    "C92_marks_refuted"
   ],
   "note": "Proved for every listing that is printed for a file whose last line has an end: alignment, columns, coverage, one line for each entry and embedded object, marks of direct objects. Refuted for the marks of embedded objects (object numbers and places are confused) and of xref entries (an entry is marked when another entry of the section has the same address). How Python formats the values in the last column is a parameter; ratios are exact."
  },
  {
   "property": "C93",
   "status": "partial",
   "theorems": [
    "C93_updates_partial",
    "C93_unlisted_refuted",
    "C93_member_refuted"
   ],
   "note": "Proved for files of any number of revisions, with tables or xref streams, that are read in the same way when bytes are appended (a computable criterion, durable, is proved sufficient); updates are those of objects of generation 0 outside object streams. When the first section is an xref stream, its number must be listed and its filter be supported, zlib must decompress what it compresses, and the content of the new xref stream must not hold the word endstream. Missing: deletions, updates of objects inside object streams. C93_unlisted_refuted: when the first xref stream does not list itself, an object added gets its number and is lost when the document is saved, the new xref stream taking its place. C93_member_refuted: an update of an object that is in an object stream is undone by reading another object of the stream, and the file that is saved has the old value."
  },
  {
   "property": "C94",
   "status": "partial",
   "theorems": [
    "C94_hex_refuted",
    "C94_hex_partial",
    "C94_hex_only",
    "C94_a85_partial",
    "C94_a85_refuted"
   ],
   "note": "Refuted for every ASCIIHex text with its end mark, whatever the content; what is decoded is exactly an even number of bare digits. Proved for every ASCII85 text whose white space is TAB, LF, CR or SPACE; refuted for form feed."
  },
  {
   "property": "C95",
   "status": "partial",
   "theorems": [
    "C95_png_partial",
    "C95_other_refuted"
   ],
   "note": "Proved for PNG data whose rows are filtered Up, the first one possibly unfiltered. Refuted for predictors 1 and 2 and for each other PNG filter."
  },
  {
   "property": "C96",
   "status": "partial",
   "theorems": [
    "C96_array_partial",
    "C96_array_refuted",
    "C96_error_partial",
    "C96_unspaced_partial",
    "C96_spacing_refuted"
   ],
   "note": "C96_error_partial and C96_array_partial give the exact error for every string shown with Tj and every array shown with TJ; it is 0 for strings without spacings (C96_unspaced_partial). C96_spacing_refuted: with a character spacing of 2, two glyphs advance by 12 instead of 14. C96_array_refuted: an array with one adjustment advances by 17 instead of 16. Numbers are exact rationals."
  },
  {
   "property": "C97",
   "status": "partial",
   "theorems": [
    "C97_structure_partial",
    "C97_blank_partial",
    "C97_hybrid_refuted",
    "C97_millimetres_refuted"
   ],
   "note": "Proved for coherent documents whose first data is a file with a header of three characters; what is said of hybrid files is the result of hybrid(doc), refuted by C97_hybrid_refuted, and linearized is the subject of C67. The description of the paper is exact on rationals: whole millimetres (truncated: C97_millimetres_refuted, A4 is said to be 209 mm wide), inches to the nearest hundredth, name. C97_blank_partial: the fourteen papers of blank."
  },
  {
   "property": "C98",
   "status": "partial",
   "theorems": [
    "C98_hybrid_partial",
    "C98_refuted"
   ],
   "note": "Proved for sequences whose hybrid sections repeat the entries of the table in the stream. C98_refuted: a file of one hybrid section whose stream gives only the objects hidden in the table; its catalog is lost."
  },
  {
   "property": "C99",
   "status": "partial",
   "theorems": [
    "C99_syntax_partial",
    "C99_indirect_partial",
    "C99_comment_refuted",
    "C99_bracket_refuted"
   ],
   "note": "Proved for the grammars spelled and object_text (Spec_Syntax.v), which leave out comments holding brackets, comments after obj or before stream, strings holding doubled brackets, generations other than 0 in references, and a hexadecimal string directly before the end of a dictionary. C99_comment_refuted, C99_bracket_refuted: the code fails on comments in these places."
  },
  {
   "property": "C100",
   "status": "partial",
   "theorems": [
    "C100_map_partial",
    "C100_trailer_refuted"
   ],
   "note": "Proved of the lines found by parse_xref_table_raw; C100_trailer_refuted: the trailer of a table is misread by the map when it is on the same line as its keyword."
  },
  {
   "property": "C101",
   "status": "partial",
   "theorems": [
    "C101_envelope_objects",
    "C101_envelopes_partial",
    "C101_gap_refuted"
   ],
   "note": "Proved when every number has an entry. C101_gap_refuted: a loaded file with an unused number makes envelopes raise AttributeError."
  },
  {
   "property": "C102",
   "status": "partial",
   "theorems": [
    "C102_files_partial",
    "C102_updates_partial",
    "C102_free_refuted",
    "C102_layout_refuted"
   ],
   "note": "Proved for files with xref tables (no /XRefStm, no object stream), the word trailer ending its line. C102_free_refuted: an object freed by a newer table keeps its old value. C102_layout_refuted: a blank after xref loses every entry."
  },
  {
   "property": "C103",
   "status": "partial",
   "theorems": [
    "C103_stale_refuted",
    "C103_squash_version_partial"
   ],
   "note": "Same conditions as C35 (no object stream, cells carrying their numbers, no null object); the trailer must name the catalog with its generation. C103_stale_refuted: a file whose first catalog is in an object stream and whose update gives the catalog a newer /Version; squash brings the old catalog back and writes the old version."
  },
  {
   "property": "C104",
   "status": "partial",
   "theorems": [
    "C104_objstm_partial",
    "C104_comment_refuted",
    "C104_ref_refuted",
    "C104_end_refuted"
   ],
   "note": "C104_objstm_partial for the layouts of objects_text (Spec_Streams.v): members are direct objects as in C99, white space between tokens, the last token closed or followed by white space. C104_comment_refuted, C104_ref_refuted and C104_end_refuted show the layouts where the code departs from the format."
  },
  {
   "property": "C105",
   "status": "partial",
   "theorems": [
    "C105_xstream_partial",
    "C105_entries_partial",
    "C105_type_refuted",
    "C105_empty_refuted"
   ],
   "note": "C105_xstream_partial and C105_entries_partial for the streams of xstream_text (Spec_Streams.v). C105_type_refuted and C105_empty_refuted show the streams where the code departs from the format."
  },
  {
   "property": "C106",
   "status": "partial",
   "theorems": [
    "C106_files_partial",
    "C106_updates_partial",
    "C106_stale_refuted"
   ],
   "note": "C106_files_partial: opening a file with xref tables, xref streams and object streams gives the values and the trailer that its newest sections say, however objects are read. C106_updates_partial: sessions of edits only append and keep values (given the conditions of C93). C106_stale_refuted: an object of an object stream that a newer section has elsewhere gets its old value back once another member of the object stream is read. Missing: this case, objects freed by a newer section, object streams holding the object of the highest number, hybrid-reference files."
  },
  {
   "property": "C107",
   "status": "proved",
   "theorems": [
    "C107_iteration",
    "C107_iteration_ends"
   ],
   "note": "Documents that can be edited one object at a time (no object stream), as in C39; both the content of the documents and the end of the loop are proved."
  },
  {
   "property": "C108",
   "status": "proved",
   "theorems": [
    "C108_marks"
   ],
   "note": "The changes are those of C27."
  },
  {
   "property": "C109",
   "status": "proved",
   "theorems": [
    "C109_hierarchy"
   ],
   "note": "The text of a Python value (references, contents) is a parameter."
  },
  {
   "property": "C110",
   "status": "partial",
   "theorems": [
    "C110_history_partial",
    "C110_refuted",
    "C110_blank_refuted"
   ],
   "note": "Proved for documents whose data come from files and appended revisions, with the cuts where the code shows them: in column i, the cut of revision n - i. C110_refuted, C110_blank_refuted."
  },
  {
   "property": "C111",
   "status": "proved",
   "theorems": [
    "C111_view"
   ],
   "note": "Proved for every text that follow_obj returns (when it fails, see C80). The text shown for the content of a stream is that of C54_stream."
  },
  {
   "property": "C112",
   "status": "partial",
   "theorems": [
    "C112_overview_partial",
    "C112_hybrid_refuted"
   ],
   "note": "Proved with the hypotheses of C97 and C70. How Python formats the number of pages is a parameter. Missing: what hybrid and linearized say (C97, C67). C112_hybrid_refuted: overview prints Hybrid: False for a hybrid-reference file."
  },
  {
   "property": "C113",
   "status": "proved",
   "theorems": [
    "C113_index",
    "C113_aligned"
   ],
   "note": "The text of the position of an embedded object (a float) is a parameter."
  },
  {
   "property": "C114",
   "status": "partial",
   "theorems": [
    "C114_ends_partial",
    "C114_cycles",
    "C114_null_kid",
    "C114_refuted"
   ],
   "note": "Proved for finite trees (C114_ends_partial). Refuted for trees with a cycle: C114_refuted gives a file that is loaded and whose pages are never listed, C114_cycles and C114_null_kid say it for all such documents. CPython would end the recursion by RecursionError; that is not modelled."
  },
  {
   "property": "C115",
   "status": "proved",
   "theorems": [
    "C115_rule"
   ],
   "note": ""
  },
  {
   "property": "C116",
   "status": "partial",
   "theorems": [
    "C116_tokens_partial",
    "C116_ends",
    "C116_refuted"
   ],
   "note": "C116_ends holds for all texts. C116_tokens_partial is for ordinary lines; C116_refuted gives the four failures. NameError is written EUnboundLocal."
  },
  {
   "property": "C117",
   "status": "partial",
   "theorems": [
    "C117_rules_partial",
    "C117_paragraphs_partial",
    "C117_titles_partial",
    "C117_refuted",
    "C117_endless_refuted"
   ],
   "note": "C117_rules_partial holds the two others; rules start with one of their signs, not with a space. Lines of a paragraph after the first must have no sign (otherwise C117_refuted applies). C117_endless_refuted: no fuel is enough for the title with an open bracket. Missing: lists, quotes, code, links, emphasis."
  },
  {
   "property": "C118",
   "status": "partial",
   "theorems": [
    "C118_spatial_partial",
    "C118_refuted"
   ],
   "note": "C118_spatial_partial: for pages with their own resources, usable fonts and contents (the conditions of C90 and C91); what the text of a page is: C81, C82, C91. C118_refuted: a page with the resources of its parent ends the command with a KeyError."
  },
  {
   "property": "C119",
   "status": "partial",
   "theorems": [
    "C119_winansi_partial",
    "C119_macroman_partial",
    "C119_currency",
    "C119_bullet",
    "C119_refuted"
   ],
   "note": "Proved for WinAnsiEncoding (codes with a character of their own) and MacRomanEncoding (without 0xDB); the failures at 0xDB and at the bullet codes are proved for every string that contains one; StandardEncoding is refuted by its quote."
  }
 ]
}