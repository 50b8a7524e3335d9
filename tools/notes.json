{
 "C01": {
  "status": "proved",
  "note": "For every well-formed value followed by white space and a word, or ending the buffer when it has a closing delimiter. The _end_of_buffer_refuted theorem shows why the side condition is needed: a number at the very end of the buffer is read as raw bytes."
 },
 "C05": {
  "note": "Refuted by a stray ']'. Proved for texts without ']' and without the word 'stream' (decoding can diverge by itself, see C13_columns_refuted)."
 },
 "C06": {
  "note": "The written form carries both numbers and parsing keeps the object number at any place; the generation is replaced by 0 (refuted for a non-zero generation)."
 },
 "C07": {
  "note": "Refuted when an escaped backslash precedes a parenthesis; proved for all other literal strings."
 },
 "C09": {
  "note": "Proved for all values without streams; streams are proved to be left untouched, so the claim fails inside streams (refuted)."
 },
 "C10": {
  "note": "Proved for every value that is not itself a reference; for a bare reference the function returns None."
 },
 "C12": {
  "note": "Refuted; exact behaviour proved: encode applies the filters left to right, decode applies only the last one to the raw bytes."
 },
 "C13": {
  "status": "proved",
  "note": "Any tag bytes, any width, any rows, through decode_stream too; additionally /Columns -1 is shown to diverge."
 },
 "C14": {
  "note": "Refuted: /Length is always one more than the number of bytes written. The exact effect of forge_stream is proved."
 },
 "C15": {
  "note": "Proved for non-empty content that does not contain 'endstream' nor end with CR, whatever surrounds the stream; each exclusion is refuted by an example."
 },
 "C21": {
  "status": "proved",
  "note": "For all index arrays with counts >= 1; count 0 and odd arrays are characterised separately."
 },
 "C16": {
  "note": "Success and exact readback, for entries whose fields print in 10/5 digits (elem_ok); proved at any place of a file and through read_section."
 },
 "C17": {
  "status": "proved",
  "note": "Success and exact readback when the fields fit in the chosen width. C17_overflow: the width comes from the greatest offset only, so e.g. the free head (generation 65535) cannot be written when all offsets are below 255."
 },
 "C19": {
  "note": "All change lists with distinct positive numbers; embedded objects are described through their container. Side conditions are stated on the input index and cache."
 },
 "C20": {
  "note": "Refuted for every entry: exactly 19 bytes."
 },
 "C23": {
  "note": "Refuted at every position > 0; proved at position 0, and the exact bytes seen in CONTINUOUS mode are given."
 },
 "C24": {
  "note": "At the joints themselves (offset 0 of an update) the provider reads the older layer; the theorem covers all other positions."
 },
 "C50": {
  "status": "proved",
  "note": "Tiling for every file on which the scan returns. C50_bracket_diverges: a ']' at a region start makes the scan loop for ever."
 },
 "C57": {
  "note": "Refuted by a section whose /Prev is itself (for every amount of fuel). Proved when the back pointers of the reachable sections decrease."
 },
 "C43": {
  "note": "Length and injectivity on the defined range, and the table against an independent one."
 },
 "C44": {
  "status": "proved",
  "note": "All escape forms of the statement. The octal escapes with fewer than three digits and the escaped line ends, which the standard also has, are shown not to be handled (_iso_refuted, outside the statement)."
 },
 "C45": {
  "status": "proved",
  "note": "Both encodings. Lower-case hexadecimal byte order marks are shown not to be recognised (_lowercase_refuted, outside the statement)."
 },
 "C46": {
  "note": "Holds exactly when the first token is an operator; otherwise the first command is proved to be returned twice."
 },
 "C47": {
  "status": "proved",
  "note": "The matrix stack is restored by every balanced q...Q. The text parameters are shown not to be restored (_text_refuted, outside the statement)."
 },
 "C49": {
  "note": "Both array forms proved for CID fonts, simple fonts proved; an empty array of widths is refuted."
 },
 "C61": {
  "note": "Proved for two-byte codes and literal/hex strings; one-byte ranges and streams without sections are refuted."
 },
 "C62": {
  "note": "Proved between all literal notations of any bytes, and the exact text for ASCII; refuted for hexadecimal strings, in general."
 },
 "C63": {
  "note": "Exact width proved, with the extra fifth of a space per adjustment; refuted for an adjustment of 0."
 },
 "C64": {
  "note": "Proved for Tj and TJ (count, order and both positions); refuted for the quote operators."
 },
 "C65": {
  "note": "C65_parts_partial: any number of streams, divided between tokens of the syntax of C99, when white space or a delimiter stands on one side of each division. C65_joined_refuted: otherwise two words become one."
 },
 "C25": {
  "note": "Refuted through the API for a file with an object stream. Proved for an object that is neither in an object stream nor an object stream holding live objects, in any document whose object streams are coherent with its index (all documents without object streams are), after any sequence of reads."
 },
 "C26": {
  "note": "Refuted through the API for a superseded member of an object stream. Proved for every coherent document, in particular every document without object streams."
 },
 "C27": {
  "note": "Proved for the pending changes of every document and for every revision but the first of a document with several revisions; refuted for revision 0, which is compared with the last one."
 },
 "C29": {
  "note": "Proved for any sequence of additions of values other than None to a coherent document whose cache has one cell per object; None cannot be read back, and after compress() the cache is one cell short, so that add_object raises (both refuted through the API)."
 },
 "C28": {
  "note": "Proved for every document made from blank by reads, updates, deletions, additions and commits (C28_sessions) and for any document satisfying the invariant `ready`, which loaded documents are checked to satisfy and sessions preserve. The trailer and the xref stream object, rewritten by design, are excepted from the value claim. C28_deletions_refuted: in a document loaded from a file with an xref stream, a revision that only deletes objects cannot be committed or written, an UnboundLocalError is raised."
 },
 "C30": {
  "note": "Every written output is a prefix of all later outputs, for any sequence of api calls. The original bytes up to the last %%EOF and its line ends are kept when the newest trailer has no /XRefStm and the marker is in the last 100 bytes; C30_refuted: with /XRefStm the last revision can be dropped."
 },
 "C33": {
  "status": "partial",
  "note": "The exact index of n successive rewinds is given for all documents; the values for documents made from blank or squashed documents by edits, commits, saves and reloads. Partial because rewind fails when the trailer dictionary holds the word 'trailer' (refuted), so the values are stated whenever rewind returns."
 },
 "C37": {
  "note": "Proved for every well-formed tree and any content of the shared default dictionary (empty for the first call). Refuted over several documents: the attributes of the root of an earlier document are inherited by the next one."
 },
 "C38": {
  "note": "For documents without object streams (an update inside an object stream is lost, C25_refuted). Angles are integers or absent."
 },
 "C39": {
  "note": "For documents without object streams, trees with right /Count and /Parent, and pages from which the tree is only reached through /Parent and /P. All iteration orders of the sets. Also which objects are deleted and that nothing else changes."
 },
 "C41": {
  "note": "Selection of the pages for all keys, and its effect through keep_pages and remove_pages under the hypotheses of C39."
 },
 "C42": {
  "note": "Exact when it ends; it ends exactly when no cycle is reached; refuted by an array with a reference to itself."
 },
 "C55": {
  "note": "Strings in lexicographic order, for documents without object streams."
 },
 "C35": {
  "note": "Exact result and success proved for editable documents without null objects whose cells carry their own numbers. Refuted: references in stream dictionaries are not renamed, squashing twice fails, references to deleted objects reach other objects."
 },
 "C36": {
  "note": "Refuted: the trailer of the squashed document only keeps /Root. C36_kept_partial: metadata is kept exactly when there is none. C36_lost: the metadata of a squashed document is always empty. C36_compress_refuted: the command compress loses the metadata too."
 },
 "C40": {
  "note": "Order of the pages, page count, renamed copies and unchanged objects proved for both target choices. Refuted parts: inherited attributes of the target's root leak into the appended pages, and the appended root gets no /Parent."
 },
 "C31": {
  "note": "Proved for every document made from a new one (blank in particular) by reads, additions and updates of savable objects, commits, and by saving and reloading; objects that are object streams are left out. Sizes below 10^10 bytes, since offsets have ten digits. Values compared up to the order of dictionary entries; the trailers agree except for /Prev."
 },
 "C32": {
  "note": "Refuted: free entries are skipped when loading, so the deleted object comes back. Proved: the deletion holds in the document that writefile returns."
 },
 "C71": {
  "note": "Refuted for a loaded file whose last revision only frees objects: no revision is open, nothing is written. Proved for all documents covered by C31."
 },
 "C56": {
  "note": "Refuted, and exactly: link returns when every '](' has a later ')', and never returns otherwise."
 },
 "C72": {
  "note": "Proved except for lines that start with a link and end with '!', where it is refuted. Texts between links contain no square bracket."
 },
 "C73": {
  "note": "Proved for code spans, unmarked text and emphasis with one, two or three marks; refuted for a single character after the closing mark."
 },
 "C75": {
  "note": "Python's recursion limit is not modelled."
 },
 "C76": {
  "note": "Proved for plain paragraphs that are followed by an empty line, with lines joined as the code does; refuted otherwise."
 },
 "C77": {
  "note": "No markup for all strings; fenced blocks are shown verbatim by render_html when there is no '&'; refuted with '&lt;'."
 },
 "C54": {
  "note": "Proved for the whole page of browse when comments, xref keywords, /Type strings, version, page count and file name contain no '<'; any object, string or stream may. Refuted otherwise. Which streams are shown, and that they read as their content, is proved (C54_stream)."
 },
 "C79": {
  "note": "For indexes in which a position belongs to one number."
 },
 "C80": {
  "note": "Proved for the cross map; refuted for legal files with dangling references or objects out of the index."
 },
 "C34": {
  "note": "update_object, add_object and reading: proved for any program over any set of documents that share objects (C34_program). force_xref_stream, group_obj_into_stream and commit are refuted; the _partial theorems say which objects they can change: the /Filter of the shared trailer, the env_num of entries of the last row, and for commit nothing but the cache of the input (nothing at all once the catalog is cached), provided the first revision does not hold xref_stream_num = -1 and no object stream is under construction. Missing: the effect of commit when xref_stream_num is -1."
 },
 "C74": {
  "note": "Proved for paragraphs, titles, code blocks, flat lists, tables and quotations of plain lines, followed by empty lines (C74_quotes_partial holds C74_blocks_partial); refuted by the line after a list or a quotation, by the paragraph above an underlined title, by a tab, and by blocks inside a quotation."
 },
 "C66": {
  "note": "Proved for every non-empty list of well-formed values that are not bare references; refuted with a bare reference. The reading of the written form is proved when the stream is storable (the conditions of C15: its encoded form is not empty, has no 'endstream' and decodes to its content)."
 },
 "C81": {
  "note": "Proved for every result that is returned; refuted by a page with one letter (ZeroDivisionError). Numbers are exact rationals in the model."
 },
 "C82": {
  "note": "Proved when sizes are positive, fragments of two characters have a positive width, a fragment of each dominant size has two characters and no coordinate is -1 (with the success of the function). Refuted with a coordinate of -1. Which of several equally frequent distances is chosen is not stated."
 },
 "C68": {
  "note": "Proved for page trees where no node, after the first page of its parent, crosses the limit (fits); refuted by a nested tree with limit 2, where 4 pages are returned."
 },
 "C70": {
  "status": "proved",
  "note": "Entries are text strings (PBytes with a text_string result), null or absent; entries of another type are outside of the statement."
 },
 "C83": {
  "status": "proved",
  "note": "Both directions, with the order and the absence of duplicates."
 },
 "C84": {
  "note": "Proved for streams with one filter name or none, without /DecodeParms, and a supported new filter (or removal of an existing one). A stream with an unsupported filter is in the theorem with the contents the model gives it, an error message in place of data: C84_image_refuted. Four refutations."
 },
 "C85": {
  "note": "Proved for pages without /Annots or with an indirect array; refuted for a direct array and, for the written text, by unbalanced parentheses."
 },
 "C86": {
  "note": "Proved for all pages with /Contents; refuted by the page of a blank document."
 },
 "C87": {
  "status": "proved",
  "note": "All names of the table, and the error for all others."
 },
 "C67": {
  "note": "Proved with exactly one comment before the first object, which is written as serialize_fragment writes it; refuted without a comment and with two."
 },
 "C88": {
  "note": "Proved for documents without object streams or xref streams, from the document to the file read again; streams with no filter or one supported filter, without parameters; the file is supposed longer than 100 bytes, shorter than 10^10, and its stored bytes free of 'endstream'. Refuted for documents read from a compressed file with a gap in the numbers (an error, or live objects lost). References in dictionaries of streams are not renumbered: see C35."
 },
 "C89": {
  "note": "Proved for first revisions with one object stream, written with an xref stream; later revisions with xref streams are missing. Same hypotheses on the stored bytes as C88. C89_table_refuted: when the file has an xref table, the grouped objects are listed in it at their rank in the object stream, and are lost."
 },
 "C90": {
  "note": "Proved when every page has its own /Resources with a direct /Font dictionary whose entries are references to fonts with a name and a type. Refuted for inherited resources, an indirect /Font dictionary, fonts of type 3 without a name (an error each), and a font with two names on a page (the page is counted twice)."
 },
 "C91": {
  "note": "Proved with the hypotheses of C90 on the fonts of the page and those of C86 on its contents; the layout is that of C81. Refuted for a page with inherited resources (an error)."
 },
 "C92": {
  "note": "Proved for every listing that is printed for a file whose last line has an end: alignment, columns, coverage, one line for each entry and embedded object, marks of direct objects. Refuted for the marks of embedded objects (object numbers and places are confused) and of xref entries (an entry is marked when another entry of the section has the same address). How Python formats the values in the last column is a parameter; ratios are exact."
 },
 "C93": {
  "note": "Proved for files of any number of revisions, with tables or xref streams, that are read in the same way when bytes are appended (a computable criterion, durable, is proved sufficient); updates are those of objects of generation 0 outside object streams. When the first section is an xref stream, its number must be listed and its filter be supported, zlib must decompress what it compresses, and the content of the new xref stream must not hold the word endstream. Missing: deletions, updates of objects inside object streams. C93_unlisted_refuted: when the first xref stream does not list itself, an object added gets its number and is lost when the document is saved, the new xref stream taking its place. C93_member_refuted: an update of an object that is in an object stream is undone by reading another object of the stream, and the file that is saved has the old value."
 },
 "C94": {
  "note": "Refuted for every ASCIIHex text with its end mark, whatever the content; what is decoded is exactly an even number of bare digits. Proved for every ASCII85 text whose white space is TAB, LF, CR or SPACE; refuted for form feed."
 },
 "C95": {
  "note": "Proved for PNG data whose rows are filtered Up, the first one possibly unfiltered. Refuted for predictors 1 and 2 and for each other PNG filter."
 },
 "C96": {
  "note": "C96_error_partial and C96_array_partial give the exact error for every string shown with Tj and every array shown with TJ; it is 0 for strings without spacings (C96_unspaced_partial). C96_spacing_refuted: with a character spacing of 2, two glyphs advance by 12 instead of 14. C96_array_refuted: an array with one adjustment advances by 17 instead of 16. Numbers are exact rationals."
 },
 "C97": {
  "note": "Proved for coherent documents whose first data is a file with a header of three characters; what is said of hybrid files is the result of hybrid(doc), refuted by C97_hybrid_refuted, and linearized is the subject of C67. The description of the paper is exact on rationals: whole millimetres (truncated: C97_millimetres_refuted, A4 is said to be 209 mm wide), inches to the nearest hundredth, name. C97_blank_partial: the fourteen papers of blank."
 },
 "C98": {
  "note": "Proved for sequences whose hybrid sections repeat the entries of the table in the stream. C98_refuted: a file of one hybrid section whose stream gives only the objects hidden in the table; its catalog is lost."
 },
 "C99": {
  "note": "Proved for the grammars spelled and object_text (Spec_Syntax.v), which leave out comments holding brackets, comments after obj or before stream, strings holding doubled brackets, generations other than 0 in references, and a hexadecimal string directly before the end of a dictionary. C99_comment_refuted, C99_bracket_refuted: the code fails on comments in these places."
 },
 "C100": {
  "note": "Proved of the lines found by parse_xref_table_raw; C100_trailer_refuted: the trailer of a table is misread by the map when it is on the same line as its keyword."
 },
 "C101": {
  "note": "Proved when every number has an entry. C101_gap_refuted: a loaded file with an unused number makes envelopes raise AttributeError."
 },
 "C102": {
  "note": "Proved for files with xref tables (no /XRefStm, no object stream), the word trailer ending its line. C102_free_refuted: an object freed by a newer table keeps its old value. C102_layout_refuted: a blank after xref loses every entry."
 },
 "C103": {
  "note": "Same conditions as C35 (no object stream, cells carrying their numbers, no null object); the trailer must name the catalog with its generation. C103_stale_refuted: a file whose first catalog is in an object stream and whose update gives the catalog a newer /Version; squash brings the old catalog back and writes the old version."
 },
 "C104": {
  "note": "C104_objstm_partial for the layouts of objects_text (Spec_Streams.v): members are direct objects as in C99, white space between tokens, the last token closed or followed by white space. C104_comment_refuted, C104_ref_refuted and C104_end_refuted show the layouts where the code departs from the format."
 },
 "C105": {
  "note": "C105_xstream_partial and C105_entries_partial for the streams of xstream_text (Spec_Streams.v). C105_type_refuted and C105_empty_refuted show the streams where the code departs from the format."
 },
 "C106": {
  "note": "C106_files_partial: opening a file with xref tables, xref streams and object streams gives the values and the trailer that its newest sections say, however objects are read. C106_updates_partial: sessions of edits only append and keep values (given the conditions of C93). C106_stale_refuted: an object of an object stream that a newer section has elsewhere gets its old value back once another member of the object stream is read. Missing: this case, objects freed by a newer section, object streams holding the object of the highest number, hybrid-reference files."
 },
 "C107": {
  "note": "Documents that can be edited one object at a time (no object stream), as in C39; both the content of the documents and the end of the loop are proved."
 },
 "C108": {
  "note": "The changes are those of C27."
 },
 "C109": {
  "note": "The text of a Python value (references, contents) is a parameter."
 },
 "C110": {
  "note": "Proved for documents whose data come from files and appended revisions, with the cuts where the code shows them: in column i, the cut of revision n - i. C110_refuted, C110_blank_refuted."
 },
 "C111": {
  "note": "Proved for every text that follow_obj returns (when it fails, see C80). The text shown for the content of a stream is that of C54_stream."
 },
 "C112": {
  "note": "Proved with the hypotheses of C97 and C70. How Python formats the number of pages is a parameter. Missing: what hybrid and linearized say (C97, C67). C112_hybrid_refuted: overview prints Hybrid: False for a hybrid-reference file."
 },
 "C113": {
  "note": "The text of the position of an embedded object (a float) is a parameter.",
  "status": "proved"
 },
 "C114": {
  "note": "Proved for finite trees (C114_ends_partial). Refuted for trees with a cycle: C114_refuted gives a file that is loaded and whose pages are never listed, C114_cycles and C114_null_kid say it for all such documents. CPython would end the recursion by RecursionError; that is not modelled."
 },
 "C115": {
  "note": "",
  "status": "proved"
 },
 "C116": {
  "note": "C116_ends holds for all texts. C116_tokens_partial is for ordinary lines; C116_refuted gives the four failures. NameError is written EUnboundLocal."
 },
 "C117": {
  "note": "C117_rules_partial holds the two others; rules start with one of their signs, not with a space. Lines of a paragraph after the first must have no sign (otherwise C117_refuted applies). C117_endless_refuted: no fuel is enough for the title with an open bracket. Missing: lists, quotes, code, links, emphasis."
 },
 "C118": {
  "note": "C118_spatial_partial: for pages with their own resources, usable fonts and contents (the conditions of C90 and C91); what the text of a page is: C81, C82, C91. C118_refuted: a page with the resources of its parent ends the command with a KeyError."
 },
 "C119": {
  "note": "Proved for WinAnsiEncoding (codes with a character of their own) and MacRomanEncoding (without 0xDB); the failures at 0xDB and at the bullet codes are proved for every string that contains one; StandardEncoding is refuted by its quote."
 }
}