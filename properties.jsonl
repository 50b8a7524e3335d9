{"id": "C01", "title": "Serialize then parse gives the same object", "statement": "For every object tree built from booleans, integers, decimals in positional notation, names, keywords, strings, gen-0 references, arrays and dictionaries whose leaves are lexically well formed, serialize(o) succeeds and parse_obj of that text, at any place of a buffer where it is followed by white space and a word (or at the very end of the buffer if it is a string, array or dictionary), returns an object equal to o (Python equality, i.e. dict order is irrelevant). (A number or name at the very end of a buffer is not recognised.)", "quantifier": "all well-formed object trees of any size and nesting depth", "why_tests_cant": "The trees are unboundedly deep and the tokenizer rescans nested containers character by character; a test samples a handful of shapes.", "anchors": ["pdfsyntax/objects.py:serialize", "pdfsyntax/objects.py:to_str", "pdfsyntax/objects.py:parse_obj", "pdfsyntax/objects.py:next_token", "pdfsyntax/objects.py:replace_ref"]}
{"id": "C02", "title": "Tokens lie inside the buffer and depend only on the bytes from the start index on", "statement": "For every buffer and every start index i <= len, next_token(text, i) = (h, j, t) satisfies i <= h <= j <= len(text), h < j when a token is recognised, and i < j unless text[i] is ']'; putting any bytes before the buffer just shifts h and j, and parse_obj gives the same object.", "quantifier": "all byte strings, all start indexes, all prefixes", "why_tests_cant": "Quantifies over all byte strings, including malformed ones.", "anchors": ["pdfsyntax/objects.py:next_token"]}
{"id": "C03", "title": "A token recognised in a truncated buffer is not changed by the missing bytes", "statement": "If next_token(text, i) reports a typed token (h, j, type) then next_token(text + more, i) reports the very same token whatever bytes follow.", "quantifier": "all byte strings, all continuations", "why_tests_cant": "Universal over continuations; the readers rely on it when they hand partial buffers to the tokenizer.", "anchors": ["pdfsyntax/objects.py:next_token"]}
{"id": "C04", "title": "A serialized value is exactly one self-delimiting token", "statement": "For every well-formed object that is not a reference, next_token(serialize(o) + b' ' + rest) spans exactly serialize(o) and reports the type corresponding to o.", "quantifier": "all well-formed objects, all continuations", "why_tests_cant": "Universal over objects and over what follows.", "anchors": ["pdfsyntax/objects.py:serialize", "pdfsyntax/objects.py:next_token"]}
{"id": "C05", "title": "parse_obj returns on every input", "statement": "parse_obj(text) terminates (with a value or an exception) for every byte string. (Fails: a stray ']' makes the item loop spin forever; holds for every text without ']'.)", "quantifier": "all byte strings", "why_tests_cant": "Termination over all inputs; a hanging input cannot be found by running fixed examples.", "anchors": ["pdfsyntax/objects.py:parse_obj", "pdfsyntax/objects.py:next_token"]}
{"id": "C06", "title": "References keep their object number and generation through parse and serialize", "statement": "Parsing 'n g R' inside an array or dictionary yields a reference whose number is n and whose generation is g, and serializing it gives back 'n g R'. (Fails for g <> 0: the generation is replaced by 0; the number is always kept.)", "quantifier": "all object numbers and generations, at any position in an array", "why_tests_cant": "Universal over numbers and positions.", "anchors": ["pdfsyntax/objects.py:replace_ref", "pdfsyntax/objects.py:to_str"]}
{"id": "C07", "title": "A literal string token ends at its matching parenthesis", "statement": "For every literal string whose parentheses are balanced when backslash escapes are honoured, next_token covers exactly the string. (Fails when an escaped backslash precedes a parenthesis.)", "quantifier": "all literal strings", "why_tests_cant": "Universal over strings with nested parentheses and escapes.", "anchors": ["pdfsyntax/objects.py:next_token"]}
{"id": "C08", "title": "A parsed dictionary holds exactly the written pairs, first duplicate wins", "statement": "For every list of pairs (name, well-formed value), parsing the written dictionary gives a dict where each name maps to the first value written for it and where no other key exists.", "quantifier": "all finite lists of pairs, with or without duplicates", "why_tests_cant": "Universal over lists.", "anchors": ["pdfsyntax/objects.py:parse_obj"]}
{"id": "C09", "title": "Retargeting references renames exactly the mapped references", "statement": "deep_ref_retarget(o, m) replaces every reference r occurring in o by m.get(r, r) and changes nothing else. (Fails inside streams: the entries of a Stream are not visited.)", "quantifier": "all object trees and all mappings", "why_tests_cant": "Universal over trees and mappings.", "anchors": ["pdfsyntax/objects.py:deep_ref_retarget"]}
{"id": "C10", "title": "Detecting references finds exactly the references of an object", "statement": "deep_ref_detect(o) is the set of references occurring in o, including those in the entries of streams. (Fails when o itself is a reference: it returns None.)", "quantifier": "all object trees", "why_tests_cant": "Universal over trees.", "anchors": ["pdfsyntax/objects.py:deep_ref_detect"]}
{"id": "C11", "title": "Encoding then decoding a stream with one filter is the identity", "statement": "For every content and every single filter among none, /ASCIIHexDecode, /ASCII85Decode and /FlateDecode (given that zlib.decompress inverts zlib.compress), decode_stream(encode_stream(c, d), d) == c.", "quantifier": "all byte strings, each supported filter", "why_tests_cant": "Universal over contents of any length.", "anchors": ["pdfsyntax/filters.py:encode_stream", "pdfsyntax/filters.py:decode_stream", "pdfsyntax/filters.py:asciihex"]}
{"id": "C12", "title": "Filter pipelines decode what was encoded", "statement": "For every array of supported filters, decode_stream(encode_stream(c, d), d) == c. (Fails from two filters on: every filter is applied to the raw bytes, so only the last one counts.)", "quantifier": "all filter arrays and contents", "why_tests_cant": "Universal over pipelines.", "anchors": ["pdfsyntax/filters.py:decode_stream", "pdfsyntax/filters.py:encode_stream"]}
{"id": "C13", "title": "PNG 'Up' predicted data is decoded to the original rows", "statement": "For every column count and every list of rows of that width, decoding the PNG-Up encoding of the rows returns the concatenated rows. (Rows carrying another PNG filter tag are decoded as if they were 'Up'.)", "quantifier": "all column counts, all rows, any number of rows", "why_tests_cant": "Universal over tables.", "anchors": ["pdfsyntax/filters.py:decode_predictor"]}
{"id": "C14", "title": "/Length equals the number of stream bytes", "statement": "After forge_stream(entries, content) with an integer /Length, entries['/Length'] is the number of bytes written between 'stream' EOL and EOL 'endstream'. (Fails: it is one more.)", "quantifier": "all contents and entries", "why_tests_cant": "Universal over contents.", "anchors": ["pdfsyntax/objects.py:update_internal_stream_length", "pdfsyntax/objects.py:forge_stream", "pdfsyntax/objects.py:serialize"]}
{"id": "C15", "title": "A stream survives serialize and parse byte for byte", "statement": "parse_obj(serialize(Stream(d, s, e))) has the same entries and the same encoded bytes. (Fails when the bytes are empty, end with CR or contain 'endstream'; holds otherwise.)", "quantifier": "all entries and all encoded contents", "why_tests_cant": "Universal over binary contents.", "anchors": ["pdfsyntax/objects.py:serialize", "pdfsyntax/objects.py:parse_obj", "pdfsyntax/objects.py:next_token"]}
{"id": "C16", "title": "A written xref table reads back as the same entries", "statement": "For every strictly increasing list of entries, parsing the text of format_xref_table gives, in order, the same numbers, offsets, generations and in-use/free marks, partitioned into maximal contiguous subsections, and the same trailer.", "quantifier": "all strictly increasing entry lists, all trailers", "why_tests_cant": "Universal over gaps and list lengths.", "anchors": ["pdfsyntax/filestruct.py:format_xref_table", "pdfsyntax/objects.py:parse_xref_table_raw"]}
{"id": "C17", "title": "A written xref stream reads back as the same entries", "statement": "For every strictly increasing list of entries whose fields fit in the chosen width, parsing the stream built by format_xref_stream returns the same numbers, offsets, generations, envelopes and marks.", "quantifier": "all strictly increasing entry lists", "why_tests_cant": "Universal over widths, gaps and lengths.", "anchors": ["pdfsyntax/filestruct.py:format_xref_stream", "pdfsyntax/objects.py:parse_xref_stream_raw", "pdfsyntax/objects.py:expand_xref_index"]}
{"id": "C18", "title": "The free list is one cycle through all deleted objects", "statement": "For every list of changes with distinct numbers, following next-free links from object 0 visits every deleted object exactly once, in order, and returns to 0.", "quantifier": "all change lists", "why_tests_cant": "Universal over lists.", "anchors": ["pdfsyntax/filestruct.py:circular_deleted"]}
{"id": "C19", "title": "Every xref offset of a written revision addresses its object", "statement": "In (previous bytes + revision bytes), at the offset recorded for each in-use direct object stand the bytes 'num gen obj' and the serialized current value; at the startxref offset stands the xref section; recorded positions in the new index are the same offsets.", "quantifier": "all documents, all change lists, all starting positions", "why_tests_cant": "Universal over contents, so over all offsets.", "anchors": ["pdfsyntax/filestruct.py:build_revision_byte_stream", "pdfsyntax/filestruct.py:serialize_fragment"]}
{"id": "C20", "title": "xref table entries are 20 bytes long as the PDF format requires", "statement": "Every entry line emitted by format_xref_table is exactly 20 bytes long. (Fails: they are 19 bytes long for all in-range values.)", "quantifier": "all entries with offset < 10^10 and generation < 10^5", "why_tests_cant": "Universal over entries.", "anchors": ["pdfsyntax/filestruct.py:format_xref_table"]}
{"id": "C21", "title": "An xref /Index array expands to the object numbers it denotes", "statement": "For every list of (first, count) pairs with count >= 1, expand_xref_index lists first..first+count-1 for each pair in order, tagged with the subsection rank. (A pair with count 0 wrongly yields one number.)", "quantifier": "all index arrays", "why_tests_cant": "Universal over arrays.", "anchors": ["pdfsyntax/objects.py:expand_xref_index"]}
{"id": "C22", "title": "The SINGLE data provider honours its contract", "statement": "For every non-empty data, start position in [-len, len) and length, the provider returns (buffer, i, offset, n) such that buffer[i:i+n] is data[p:p+n] where p is the (possibly negative) position normalised and n is the number of available bytes up to length.", "quantifier": "all data, positions and lengths", "why_tests_cant": "Universal over positions and lengths.", "anchors": ["pdfsyntax/filestruct.py:bdata_provider"]}
{"id": "C23", "title": "CONTINUOUS and SINGLE providers are interchangeable", "statement": "For every file, position and length both modes let the caller read the same bytes at the returned index. (Fails for every position > 0 inside the file: CONTINUOUS returns a chunk but an index relative to the file.)", "quantifier": "all files, positions and lengths", "why_tests_cant": "Universal over positions.", "anchors": ["pdfsyntax/filestruct.py:bdata_provider"]}
{"id": "C24", "title": "The composite provider reads the file as if the update had been appended", "statement": "For any number of stacked updates, the composite provider reads at every position strictly after the joint the appended bytes, and at every earlier position the bytes of the base.", "quantifier": "all stacks of appended fragments, all positions and lengths", "why_tests_cant": "Universal over histories.", "anchors": ["pdfsyntax/docstruct.py:merge_fdata"]}
{"id": "C25", "title": "Read your writes, and only them", "statement": "After update_object(doc, n, v), get_object returns v for n and the same value as before for every other number, even after any sequence of other reads. (Fails for documents with object streams: reading a sibling reloads the whole stream over the cache.)", "quantifier": "all documents, objects, values, read sequences", "why_tests_cant": "Universal over histories of reads.", "anchors": ["pdfsyntax/docstruct.py:update_object", "pdfsyntax/docstruct.py:get_object", "pdfsyntax/docstruct.py:memoize_obj_in_cache"]}
{"id": "C26", "title": "Reads do not depend on earlier reads", "statement": "get_object(doc, n) returns the same value whatever get_object calls were made before on the same document. (Fails with object streams whose members were superseded by a later revision.)", "quantifier": "all documents, all sequences of reads", "why_tests_cant": "Universal over schedules of reads.", "anchors": ["pdfsyntax/docstruct.py:memoize_obj_in_cache", "pdfsyntax/docstruct.py:get_object"]}
{"id": "C27", "title": "changes() lists exactly the differences with the previous revision", "statement": "An object is listed exactly once iff its index entry differs from the previous revision (except the xref stream itself); it is tagged 'a' iff absent before, 'd' iff it was live and is now deleted, 'u' otherwise.", "quantifier": "all documents and revisions", "why_tests_cant": "Universal over indexes.", "anchors": ["pdfsyntax/docstruct.py:changes"]}
{"id": "C28", "title": "commit closes the revision and changes nothing else", "statement": "If there are changes, commit adds exactly one revision, leaves no pending change and get_object gives the same values as before; committing again is a no-op; with no pending change commit returns the document itself.", "quantifier": "all documents", "why_tests_cant": "Universal over documents and histories.", "anchors": ["pdfsyntax/docstruct.py:commit", "pdfsyntax/docstruct.py:changes"]}
{"id": "C29", "title": "add_object allocates a fresh number", "statement": "add_object(doc, v) returns the reference to a number that no previous object had, get_object on it gives v, and all other objects, revisions and numbers are unchanged.", "quantifier": "all documents and values, all sequences of additions", "why_tests_cant": "Universal over histories.", "anchors": ["pdfsyntax/docstruct.py:add_object"]}
{"id": "C30", "title": "Edits are non destructive: the output starts with the original file", "statement": "For any document loaded from a file and any sequence of updates, additions, deletions and commits, the bytes output by writefile start with the original revisions byte for byte and each committed revision stays a prefix of all later outputs.", "quantifier": "all files, all edit histories", "why_tests_cant": "Universal over histories.", "anchors": ["pdfsyntax/api.py:writefile", "pdfsyntax/docstruct.py:commit", "pdfsyntax/docstruct.py:revision_index"]}
{"id": "C31", "title": "Write then load gives the same objects", "statement": "For a document built by additions and updates of well-formed objects and committed any number of times, loading the bytes output by writefile gives a document with the same number of revisions in which every live object has the same value.", "quantifier": "all edit histories over well-formed objects", "why_tests_cant": "Universal over histories; goes through offsets, xref chain and parser.", "anchors": ["pdfsyntax/api.py:writefile", "pdfsyntax/api.py:loads", "pdfsyntax/filestruct.py:build_xref_sequence", "pdfsyntax/filestruct.py:build_index_from_xref_sequence"]}
{"id": "C32", "title": "A deletion survives write and load", "statement": "If an object was deleted, loading the written bytes gives a document where the object is not in use. (Fails: free entries are skipped, the object of the earlier revision comes back.)", "quantifier": "all edit histories", "why_tests_cant": "Universal over histories.", "anchors": ["pdfsyntax/filestruct.py:parse_xref_table", "pdfsyntax/filestruct.py:build_index_from_xref_sequence"]}
{"id": "C33", "title": "rewind undoes commit", "statement": "rewind(commit(doc)) has the index of the committed revision as its open revision and one revision less, and every live object reads as it did before the commit, whatever was read, updated or added in the open revision since; the rewound revision is open again. Rewinding a document as often as it has revisions ends in revision 0 and stays there.", "quantifier": "all documents", "why_tests_cant": "Universal over histories.", "anchors": ["pdfsyntax/docstruct.py:rewind", "pdfsyntax/docstruct.py:commit"]}
{"id": "C34", "title": "Functions do not modify their input document", "statement": "update_object, add_object, force_xref_stream, group_obj_into_stream and commit leave every observation of the input document unchanged. (update_object and add_object do; the others write through shared dictionaries in some states.)", "quantifier": "all documents, all later uses of either document", "why_tests_cant": "Aliasing: depends on which dictionaries are shared after any history.", "anchors": ["pdfsyntax/docstruct.py:copy_doc", "pdfsyntax/docstruct.py:update_object", "pdfsyntax/docstruct.py:add_object", "pdfsyntax/docstruct.py:force_xref_stream", "pdfsyntax/docstruct.py:group_obj_into_stream", "pdfsyntax/docstruct.py:commit"]}
{"id": "C35", "title": "squash keeps every live object, renumbered consistently", "statement": "squash(doc) contains exactly the live objects of doc, numbered 1..n in order, each equal to the original with all references renamed accordingly. (Fails for references inside stream dictionaries and for generations > 0.)", "quantifier": "all documents", "why_tests_cant": "Universal over deletion patterns and object graphs.", "anchors": ["pdfsyntax/docstruct.py:squash", "pdfsyntax/docstruct.py:defragment_map", "pdfsyntax/objects.py:deep_ref_retarget"]}
{"id": "C36", "title": "squash keeps the metadata", "statement": "metadata(squash(doc)) == metadata(doc). (Fails: the trailer of the squashed document only keeps /Root.)", "quantifier": "all documents", "why_tests_cant": "Universal over documents.", "anchors": ["pdfsyntax/docstruct.py:squash", "pdfsyntax/api.py:metadata"]}
{"id": "C37", "title": "flat_page_tree lists the leaves in order with nearest-ancestor attributes", "statement": "For every page tree, flat_page_tree lists the page leaves from left to right, each with the inheritable attributes of its nearest ancestor defining them. (Holds for the first call of the process; fails in general because attributes of earlier documents leak through a shared default argument.)", "quantifier": "all page trees, all call histories", "why_tests_cant": "Universal over trees and over the history of calls.", "anchors": ["pdfsyntax/docstruct.py:flat_page_tree", "pdfsyntax/docstruct.py:pages"]}
{"id": "C38", "title": "Rotations compose", "statement": "Rotating pages by a then by b gives every selected page the same /Rotate as rotating by a+b; the value is always in [0,360), stays a multiple of 90 if it was one, and unselected pages keep their object.", "quantifier": "all documents, angles and page selections", "why_tests_cant": "Universal over angles and selections.", "anchors": ["pdfsyntax/api.py:rotate"]}
{"id": "C39", "title": "Removing pages removes exactly them and keeps every /Count right", "statement": "For a well-formed page tree, remove_pages(doc, S) leaves the pages not in S, in order, and every tree node's /Count equals its number of page leaves; keep_pages(doc, S) is the complement.", "quantifier": "all well-formed page trees and all sets of pages, any iteration order of the sets", "why_tests_cant": "Universal over trees, sets and set iteration orders.", "anchors": ["pdfsyntax/docstruct.py:remove_pages", "pdfsyntax/docstruct.py:keep_pages"]}
{"id": "C40", "title": "Concatenation lists the left pages then the right pages", "statement": "The page list of concat(a, b) is the page list of a followed by the (renumbered) page list of b and the page count is the sum.", "quantifier": "all pairs of documents", "why_tests_cant": "Universal over documents.", "anchors": ["pdfsyntax/docstruct.py:concat"]}
{"id": "C41", "title": "Slices select the pages Python slicing selects", "statement": "doc[k] keeps page k mod n, doc[a:b:s] keeps exactly the set of pages range(n)[a:b:s], for every n, k, a, b, s with s != 0.", "quantifier": "all page counts, indexes and slices, including negative and absent bounds", "why_tests_cant": "Universal over bounds.", "anchors": ["pdfsyntax/docstruct.py:Doc.__getitem__", "pdfsyntax/docstruct.py:keep_pages"]}
{"id": "C42", "title": "dependencies() is the set of objects reachable without going up", "statement": "dependencies(doc, o) is the set of references reachable from o without following /Parent and /P (and not entering streams). (Does not terminate on reference cycles.)", "quantifier": "all object graphs", "why_tests_cant": "Reachability over arbitrary graphs.", "anchors": ["pdfsyntax/docstruct.py:dependencies"]}
{"id": "C43", "title": "PDFDocEncoding decoding is total and loses nothing", "statement": "Every byte string decodes, to a string of the same length, and two different byte strings decode to different strings; ASCII printable text decodes to itself.", "quantifier": "all byte strings", "why_tests_cant": "Universal over strings.", "anchors": ["pdfsyntax/text.py:prepare_pdfdoc_charset", "pdfsyntax/text.py:decode_pdfdoc"]}
{"id": "C44", "title": "Unescaping inverts escaping", "statement": "For every byte string, unescaping its PDF-escaped form (backslash before parentheses and backslash, or 3-digit octal for any byte) returns it; a trailing lone backslash or a bad octal raises.", "quantifier": "all byte strings", "why_tests_cant": "Universal over strings.", "anchors": ["pdfsyntax/text.py:unescape_literal_string"]}
{"id": "C45", "title": "Literal and hexadecimal notations of a text string mean the same text", "statement": "For every byte string, text_string of its escaped literal form and of its upper-case hexadecimal form are equal, in both PDFDocEncoding and UTF-16BE cases.", "quantifier": "all byte strings", "why_tests_cant": "Universal over strings.", "anchors": ["pdfsyntax/text.py:text_string"]}
{"id": "C46", "title": "Content streams are split into commands without loss or duplication", "statement": "parse_stream_content returns commands whose concatenation is the token list, each made of operands followed by one operator. (Fails when the stream starts with an operand: the first command is duplicated.)", "quantifier": "all content streams", "why_tests_cant": "Universal over token lists.", "anchors": ["pdfsyntax/graphics.py:parse_stream_content"]}
{"id": "C47", "title": "q/Q restore the transformation matrix", "statement": "Executing q, any balanced command sequence, then Q leaves the graphics state stack unchanged.", "quantifier": "all balanced command sequences", "why_tests_cant": "Universal over sequences.", "anchors": ["pdfsyntax/graphics.py:apply_command"]}
{"id": "C48", "title": "Matrix products form a monoid and act as composition", "statement": "multiply_matrices is associative with IDENTITY_MATRIX as neutral element, and corresponds to applying the first then the second transformation to points; Td displacements add up.", "quantifier": "all matrices over exact numbers", "why_tests_cant": "Universal over numbers.", "anchors": ["pdfsyntax/graphics.py:multiply_matrices", "pdfsyntax/graphics.py:apply_command"]}
{"id": "C49", "title": "Font width tables return the declared widths", "statement": "For every /W array made of list and range groups, the width of a character is the last declaration covering it, else the default; for /Widths it is widths[c - first] inside the table and 500 outside. (Fails for an empty /W: every character is 500 wide whatever the default.)", "quantifier": "all width arrays, all characters", "why_tests_cant": "Universal over arrays.", "anchors": ["pdfsyntax/docstruct.py:prepare_w", "pdfsyntax/docstruct.py:prepare_widths"]}
{"id": "C50", "title": "Disassembly regions tile the file", "statement": "The absolute regions reported by file_object_map start at 0, each begins where the previous one ends, and they reach the end of the file unless an unparsable region stops the scan. (Does not terminate on a stray ']'.)", "quantifier": "all files", "why_tests_cant": "Universal over files.", "anchors": ["pdfsyntax/filestruct.py:file_object_map", "pdfsyntax/objects.py:parse_region"]}
{"id": "C51", "title": "check_index_targets reports exactly the dangling xref entries", "statement": "An entry of an xref section is reported iff no object of the object map has its number, generation (or envelope) and position.", "quantifier": "all object maps and xref sequences", "why_tests_cant": "Universal over maps.", "anchors": ["pdfsyntax/filestruct.py:check_index_targets"]}
{"id": "C52", "title": "check_not_indexed_objects reports exactly the unindexed objects", "statement": "An object of the object map is reported iff no xref section has an entry with its number, generation (or envelope) and position.", "quantifier": "all object maps and xref sequences", "why_tests_cant": "Universal over maps.", "anchors": ["pdfsyntax/filestruct.py:check_not_indexed_objects"]}
{"id": "C53", "title": "A hex dump shows every byte once, in order", "statement": "The hexadecimal columns of hexdump(data) concatenate to the data, line k shows bytes 10k..10k+9, and the text column shows printable ASCII bytes as themselves and all others as '.'.", "quantifier": "all data", "why_tests_cant": "Universal over data of any length.", "anchors": ["pdfsyntax/filestruct.py:hexdump", "pdfsyntax/filters.py:ascii_hexdump_printable"]}
{"id": "C54", "title": "The HTML view cannot be injected with markup from the file", "statement": "Every '<' of the page generated for a file comes from the page template. (Values and printable streams are escaped; comments and xref keywords are not.) The text of a stream is shown as it is when its only control characters below 20 are line ends, and is not shown otherwise.", "quantifier": "all files", "why_tests_cant": "Universal over attacker-chosen files.", "anchors": ["pdfsyntax/display.py:follow_obj", "pdfsyntax/display.py:add_comment", "pdfsyntax/display.py:build_xref_table", "pdfsyntax/graphics.py:printable_stream_content"]}
{"id": "C55", "title": "Upgrading the version never lowers it", "statement": "After update_version(doc, v), version(doc) is the greater of v and the previous version; all other objects are unchanged.", "quantifier": "all documents and versions", "why_tests_cant": "Universal over documents.", "anchors": ["pdfsyntax/docstruct.py:version", "pdfsyntax/docstruct.py:update_version"]}
{"id": "C56", "title": "Rendering a markdown link terminates", "statement": "link(s) returns for every string. (Fails: '](' without a later ')' loops forever.)", "quantifier": "all strings", "why_tests_cant": "Termination over all inputs.", "anchors": ["pdfsyntax/markdown.py:link"]}
{"id": "C57", "title": "Reading the xref chain terminates", "statement": "build_xref_sequence returns for every file. (Fails on a /Prev that points back.)", "quantifier": "all files", "why_tests_cant": "Termination over all inputs.", "anchors": ["pdfsyntax/filestruct.py:build_xref_sequence"]}
{"id": "C58", "title": "The index has one row per revision, each row extending the previous one", "statement": "Rows of the index built from a chain of n xref sections in file order are n; the row of revision k maps each object number to its latest definition in revisions 0..k, with o_ver counting its redefinitions.", "quantifier": "all xref chains", "why_tests_cant": "Universal over chains.", "anchors": ["pdfsyntax/filestruct.py:build_index_from_xref_sequence"]}
{"id": "C59", "title": "An indirect object survives serialization byte for byte", "statement": "serialize_fragment(num, gen, o) produces text from which parse_indirect_obj, at any place of any file, recovers the number, the generation, an equal value and the exact extent of the object.", "quantifier": "all values (containers and streams), all numbers, any text before and after", "why_tests_cant": "Universal over value trees and stream contents.", "anchors": ["pdfsyntax/filestruct.py:serialize_fragment", "pdfsyntax/objects.py:parse_indirect_obj"]}
{"id": "C60", "title": "The position that follows an object is the nearest one", "statement": "The end recorded for a position of a file is the least recorded position (or end of file) strictly greater than it; the reported number of objects is the greatest number of a direct entry.", "quantifier": "all xref chains and file sizes", "why_tests_cant": "Universal over sets of positions.", "anchors": ["pdfsyntax/filestruct.py:build_xref_sequence"]}
{"id": "C61", "title": "ToUnicode maps are applied as declared", "statement": "The map read from a /ToUnicode stream sends each declared source code (bfchar, or bfrange with consecutive targets) to the declared text, and show strings given as literal or hex strings are translated code by code. (Fails for one-byte ranges and for streams without sections.)", "quantifier": "all lists of declarations, all strings of declared codes", "why_tests_cant": "Universal over maps and strings.", "anchors": ["pdfsyntax/text.py:apply_tounicode"]}
{"id": "C62", "title": "A simple-font string is decoded through its encoding whatever its notation", "statement": "For fonts with a predefined encoding, the text obtained from a shown string depends only on the bytes it denotes, not on the notation (literal or hexadecimal). (Fails for hexadecimal strings.)", "quantifier": "all strings and encodings", "why_tests_cant": "Universal over strings.", "anchors": ["pdfsyntax/text.py:apply_encoding"]}
{"id": "C63", "title": "The advance of a TJ array is the sum of the widths minus the adjustments", "statement": "Showing a TJ array moves the text position by the sum of the glyph widths minus the adjustments, in thousandths of the font size; in particular an adjustment of 0 changes nothing. (Fails: each adjustment adds a fifth of a space.)", "quantifier": "all arrays, fonts and sizes", "why_tests_cant": "Universal over arrays and exact arithmetic.", "anchors": ["pdfsyntax/graphics.py:text_element_to_unicode"]}
{"id": "C64", "title": "Every text-showing operator produces a fragment at its position", "statement": "Extraction gives one fragment for each operator that shows text, in order, placed by the text rendering matrix before and after the advance. (Fails for the operators ' and \".)", "quantifier": "all command sequences", "why_tests_cant": "Universal over command sequences.", "anchors": ["pdfsyntax/api.py:build_text_fragments", "pdfsyntax/graphics.py:apply_command"]}
{"id": "C65", "title": "The division of page contents into streams does not matter", "statement": "A page whose /Contents is split at token boundaries into several streams gives the same fragments as the page with a single stream made of the parts separated by white space. (Fails: streams are joined without a separator, so two words on both sides of a division become one. Holds when white space or a delimiter stands at each division.)", "quantifier": "all pages", "why_tests_cant": "Universal over splits.", "anchors": ["pdfsyntax/api.py:build_text_fragments"]}
{"id": "C66", "title": "Objects put in an object stream are read again", "statement": "When objects are put one after the other in an empty object stream (append_to_stream_fragment) and the stream is completed (finalize_stream), parse_object_stream gives the same objects: as many, in the same order, with the same numbers and equal values, each at the position announced by the first line of the stream, and /N is their number. The same holds when the completed stream is first written (serialize) and parsed again. (Fails when one of the objects is itself a reference: it takes three tokens and the reader divides the number of tokens by three, so the other objects are shifted.)", "quantifier": "all non-empty lists of numbered values, all dictionaries and filters of the stream", "why_tests_cant": "Universal over lists of any length and over values of any depth.", "anchors": ["pdfsyntax/filestruct.py:append_to_stream_fragment", "pdfsyntax/filestruct.py:finalize_stream", "pdfsyntax/objects.py:parse_object_stream"]}
{"id": "C67", "title": "linearized finds the linearization dictionary", "statement": "linearized(fdata) returns the first object of the file when it is a dictionary with /Linearized, and None when it is a dictionary without it. (Fails unless exactly one comment line stands between the 8 bytes of the header and the first object: without it, or with two, a linearized file is not recognised. Holds with one comment.)", "quantifier": "all files that begin with 8 bytes, one comment and an object", "why_tests_cant": "Universal over the contents of the dictionary, the comment and the rest of the file.", "anchors": ["pdfsyntax/filestruct.py:linearized", "pdfsyntax/api.py:structure"]}
{"id": "C68", "title": "pages(doc, max_nb) lists the first pages", "statement": "For every positive m, pages(doc, m) returns the first m pages of the document (all of them if there are fewer), each with its inherited attributes, and reads without changing anything. (Fails on nested page trees: a node reached after the first page of its parent is listed whole or cut at the wrong place, so that more than m pages, or other pages than the first ones, are returned. Holds when no such node crosses the limit, in particular for flat trees.)", "quantifier": "all coherent documents with a page tree, all m > 0", "why_tests_cant": "Universal over all shapes of page trees and all limits.", "anchors": ["pdfsyntax/docstruct.py:pages", "pdfsyntax/docstruct.py:flat_page_tree"]}
{"id": "C69", "title": "in_use lists exactly the live objects", "statement": "in_use(doc) lists, in increasing order of number and without repetition, the references of exactly the objects of the open revision that are present and not deleted, with their generations.", "quantifier": "all documents", "why_tests_cant": "Universal over index contents.", "anchors": ["pdfsyntax/docstruct.py:in_use", "pdfsyntax/docstruct.py:get_iref"]}
{"id": "C70", "title": "metadata returns the text of the information entries", "statement": "metadata(doc) returns, for Title, Author, Subject, Keywords, Creator, Producer, CreationDate and ModDate, the decoded text of the entry of the document information dictionary, through one reference if it is one, and None when the dictionary or the entry is absent, null or empty; nothing is changed.", "quantifier": "all coherent documents whose information entries are text strings, direct or by reference, or absent", "why_tests_cant": "Universal over all documents and all combinations of present, absent and indirect entries.", "anchors": ["pdfsyntax/api.py:metadata", "pdfsyntax/docstruct.py:info", "pdfsyntax/text.py:text_string"]}
{"id": "C71", "title": "An edit of a loaded file is in the file written next", "statement": "If a file is loaded, an object updated with update_object and the document written with writefile, loading the written bytes gives the updated value. (Fails for a file whose last revision only deletes objects: the loader leaves no open revision and writefile outputs the old bytes.)", "quantifier": "all files and edits", "why_tests_cant": "Universal over files and values; depends on the shape of the last revision.", "anchors": ["pdfsyntax/api.py:writefile", "pdfsyntax/api.py:loads", "pdfsyntax/docstruct.py:commit", "pdfsyntax/docstruct.py:update_object"]}
{"id": "C72", "title": "Markdown links are rendered in place", "statement": "link applied to a line made of texts, [text](url) links and ![alt](url) images gives the same line with each link and image replaced, in order, by its HTML element (and .md targets renamed to .html), every other character kept. (Fails when a line starts with a link and ends with '!': the character before the first link is read at index -1, so the link becomes an image and the source is kept.)", "quantifier": "all lines of texts, links and images", "why_tests_cant": "Universal over the sequence of pieces and their contents.", "anchors": ["pdfsyntax/markdown.py:link"]}
{"id": "C73", "title": "Inline styles keep the text", "statement": "style returns the line with the marked spans wrapped in em (one mark), strong (two marks), both (three marks) or code elements and every other character kept. (Fails for emphasis: a single character after the closing mark is dropped. Holds for code spans, unmarked text and emphasis followed by two characters of text after single marks, one after double marks, or by the end of the line; marks made of '_' stand after a space.)", "quantifier": "all lines of unmarked text and code spans", "why_tests_cant": "Universal over the sequence of spans.", "anchors": ["pdfsyntax/markdown.py:style"]}
{"id": "C74", "title": "Markdown documents are rendered block by block", "statement": "render_html renders a document block by block and in order: each '#' or underlined title as an element of its level with its text, each list as <ul> or <ol> with one <li> per item, each fenced or indented code block as <pre> with its lines, each table as <table> with its titles and its rows, each quotation as <blockquote>, each paragraph as <p> with <br> after the lines ending with two spaces. Nothing is lost. (Fails: the line that follows a list or a quotation, the paragraph just above an underlined title and a short line indented by a tab are lost; blocks inside a quotation are plain text. Holds for documents where paragraphs, lists, quotations of plain lines, indented code and tables are followed by an empty line.)", "quantifier": "all sequences of blocks, all texts without inline markup, all code lines", "why_tests_cant": "Universal over sequences of blocks of unbounded length and over all their contents.", "anchors": ["pdfsyntax/markdown.py:render_html", "pdfsyntax/markdown.py:parse_markdown", "pdfsyntax/markdown.py:parse_title", "pdfsyntax/markdown.py:parse_list", "pdfsyntax/markdown.py:parse_code_block", "pdfsyntax/markdown.py:assemble_html"]}
{"id": "C75", "title": "Parsing markdown blocks terminates", "statement": "parse_markdown returns or raises for every list of lines, after at most 2n+2 loop turns for n lines, nested quotations included.", "quantifier": "all lists of lines", "why_tests_cant": "Termination over all inputs, with recursion on quotations.", "anchors": ["pdfsyntax/markdown.py:parse_markdown", "pdfsyntax/markdown.py:parse_code_block", "pdfsyntax/markdown.py:parse_list", "pdfsyntax/markdown.py:parse_table"]}
{"id": "C76", "title": "Paragraphs are rendered", "statement": "render_html renders each paragraph of the text as one <p> element with its words. (Fails: a last paragraph not followed by an empty line is dropped, the lines of a paragraph are joined without a space, and a table row without cell raises IndexError. Holds for paragraphs of plain lines followed by empty lines, up to the joining.)", "quantifier": "all sequences of plain paragraphs", "why_tests_cant": "Universal over the number of paragraphs, lines and characters.", "anchors": ["pdfsyntax/markdown.py:render_html", "pdfsyntax/markdown.py:parse_markdown", "pdfsyntax/markdown.py:flush_p", "pdfsyntax/markdown.py:assemble_html"]}
{"id": "C77", "title": "Code blocks are shown verbatim", "statement": "The HTML of a code block contains no markup from the code, and a browser shows the code itself. (Fails when the code contains entities: '&' is not escaped.)", "quantifier": "all strings", "why_tests_cant": "Universal over strings; inverse of the escaping.", "anchors": ["pdfsyntax/markdown.py:entities"]}
{"id": "C79", "title": "The view lists the users of each object", "statement": "In the HTML view, the sections listed as using an object are exactly the sections of the last revision (objects and trailers) that contain a reference to it, directly or nested.", "quantifier": "all lists of sections and all indexes in which a position belongs to one number", "why_tests_cant": "Universal over files with any number of revisions and any nesting of the references.", "anchors": ["pdfsyntax/api.py:cross_map_index", "pdfsyntax/api.py:find_abs_pos_in_index", "pdfsyntax/api.py:find_xref_table_pos_in_index"]}
{"id": "C80", "title": "The view can be built", "statement": "browse builds a page for every file that loads. (Fails with a reference to a number that no revision describes, and with an object that is in the file and not in the index. The cross map is built when the index describes all sections and all targets of the last revision.)", "quantifier": "all lists of sections and all indexes", "why_tests_cant": "Universal over files; the failing ones are legal files.", "anchors": ["pdfsyntax/api.py:cross_map_index", "pdfsyntax/cli.py:browse"]}
{"id": "C81", "title": "Every fragment of text of a page is printed once", "statement": "extract_page_text prints the text of every text fragment of the page, once: the visible characters of the result are those of the fragments, line by line from top to bottom and from left to right in a line. (Fails with ZeroDivisionError on a page where no fragment of the main font size has two characters, for instance a page with a single letter. Holds whenever a text is returned.)", "quantifier": "all lists of text fragments, all contents and fonts of a page", "why_tests_cant": "Universal over the number, positions, sizes and texts of fragments.", "anchors": ["pdfsyntax/layout.py:basic_spatial_layout", "pdfsyntax/layout.py:simplify_horizontal_text_elements", "pdfsyntax/layout.py:typical_font_size", "pdfsyntax/layout.py:typical_char_width", "pdfsyntax/api.py:extract_page_text"]}
{"id": "C82", "title": "Rows and columns of the text follow the page", "statement": "basic_spatial_layout prints one row per line of the page; fragments of a line are within 0.9 line distance of its highest one and those of lower lines are not; a fragment separated from the previous one starts at its column, counted from the left margin in average character widths, or right after the previous one if that column is passed; empty lines stand for larger vertical distances. Moving the page does not change its text. (Fails when an abscissa or an ordinate is exactly -1, which the code takes for 'no value yet': the margin, or the empty lines, are then wrong.)", "quantifier": "all non-empty lists of fragments with positive sizes and widths", "why_tests_cant": "Universal over all positions and sizes.", "anchors": ["pdfsyntax/layout.py:basic_spatial_layout", "pdfsyntax/layout.py:minimum_x", "pdfsyntax/layout.py:typical_line_spacing", "pdfsyntax/layout.py:most_frequent"]}
{"id": "C83", "title": "list_streams lists every stream in use, once", "statement": "list_streams(doc) returns in increasing order the number of every object in use that is a stream, and of no other object; nothing is changed. It succeeds whenever every object in use can be read.", "quantifier": "all coherent documents, whatever their history", "why_tests_cant": "Universal over documents and edits.", "anchors": ["pdfsyntax/api.py:list_streams", "pdfsyntax/docstruct.py:in_use"]}
{"id": "C84", "title": "apply_filter keeps the contents of streams", "statement": "apply_filter(doc, streams, flt) gives each listed stream the filter flt (none for ''), with a stored form that decodes to the same content; every other entry, except /Length, and every other object is unchanged. (Fails for a stream with an unsupported filter, for example an image, whose data is replaced by an error message; for flt = '' on a stream without filter; for an array of filters, AttributeError; with /DecodeParms, kept for the new filter.)", "quantifier": "all editable documents, all lists of stream numbers, all three supported filters or none", "why_tests_cant": "Universal over contents of streams and lists of streams; the failing filters do not occur in the tests.", "anchors": ["pdfsyntax/api.py:apply_filter", "pdfsyntax/filters.py:encode_stream", "pdfsyntax/objects.py:forge_stream"]}
{"id": "C85", "title": "add_text_annotation adds one annotation to one page", "statement": "add_text_annotation(doc, i, text, rect, opened) adds a new object, a text annotation with this text, rectangle and state, and puts a reference to it at the end of the annotations of page i (counted from the end when negative); every other entry of the page and every other object is unchanged. (Fails with AttributeError for a page whose /Annots is a direct array; a text with unbalanced parentheses is cut when the annotation is written.)", "quantifier": "all editable documents with a page tree, all page indexes", "why_tests_cant": "Universal over documents, pages and existing annotations.", "anchors": ["pdfsyntax/api.py:add_text_annotation"]}
{"id": "C86", "title": "get_page_contents lists the content streams of a page in order", "statement": "get_page_contents(doc, i) returns the content streams of page i in order, whether /Contents is a reference to a stream, a reference to an array, or an array of references to either; nothing is changed. (Fails with KeyError for a page without /Contents, such as the page of a blank document.)", "quantifier": "all coherent documents with a page tree, all page indexes", "why_tests_cant": "Universal over all nestings and sizes of contents.", "anchors": ["pdfsyntax/api.py:get_page_contents"]}
{"id": "C87", "title": "blank makes one page of the named paper", "statement": "blank(name), for a name of paper of the table, gives an editable document with one page whose /MediaBox is the size of this paper, in points, rounded to the nearest; KeyError for any other name.", "quantifier": "all names", "why_tests_cant": "Universal over all names, and the shape of the document is a statement about the whole page tree.", "anchors": ["pdfsyntax/api.py:blank", "pdfsyntax/api.py:PAPER_SIZES"]}
{"id": "C88", "title": "compress keeps every live object", "statement": "When compress(doc) succeeds and its result is written and read again, each live object of doc is read back under its rank among the live objects, its references renumbered accordingly; a stream has the same content and the filter FlateDecode, the catalog says version 1.5 when the document was older, everything else is unchanged, and the trailer's /Root leads to the catalog. (Fails for a document read from an already compressed file after a page was removed: compress raises IndexError, or, when further objects were added, silently replaces live objects by the object stream and the xref stream.)", "quantifier": "all documents without object streams or xref streams, whose streams have no filter or one supported filter", "why_tests_cant": "Universal over all documents; the composition of squash, version, grouping, filters, commit, the writer and the parser.", "anchors": ["pdfsyntax/api.py:compress", "pdfsyntax/docstruct.py:squash", "pdfsyntax/docstruct.py:group_obj_into_stream", "pdfsyntax/docstruct.py:force_xref_stream", "pdfsyntax/docstruct.py:commit"]}
{"id": "C89", "title": "Objects grouped in an object stream survive saving", "statement": "A new document, some of whose objects were grouped in an object stream and whose next revision asks for an xref stream, is written to a file which is read again with the same value for every object other than the object stream itself, and with the same trailer entries except those of the xref stream. (Fails when the file has an xref table: the objects are lost.)", "quantifier": "all new documents with one object stream, all objects", "why_tests_cant": "Universal over documents; every offset of the file, every row of the xref stream and every position in the object stream is involved.", "anchors": ["pdfsyntax/docstruct.py:commit", "pdfsyntax/filestruct.py:build_revision", "pdfsyntax/filestruct.py:format_xref_stream", "pdfsyntax/filestruct.py:finalize_stream", "pdfsyntax/api.py:writefile", "pdfsyntax/api.py:loads"]}
{"id": "C90", "title": "The list of fonts is complete and correct", "statement": "fonts(doc) returns every font object that some page of the document uses, each once and in the order of the first page that uses it, with its own name, type and encoding, whether it has a map to Unicode, and the pages that use it; the document reads as before. The printed table has one line for each font, with the columns cut or filled to fixed widths.", "quantifier": "all documents, all page trees, all font dictionaries", "why_tests_cant": "Universal over documents: page trees of any depth, fonts shared by any pages under any names.", "anchors": ["pdfsyntax/api.py:fonts", "pdfsyntax/docstruct.py:get_page_fonts", "pdfsyntax/docstruct.py:prepare_font", "pdfsyntax/cli.py:print_fonts"]}
{"id": "C91", "title": "The text of a page is decoded with the fonts of that page", "statement": "extract_page_text(doc, i) prints the text fragments of the content of page i (negative numbers count from the end), decoded by the map to Unicode or else the encoding that the page's own resources give to each font name, and measured with the widths of that font; every fragment is printed once and nothing else than blanks is added; the document reads as before.", "quantifier": "all documents, all pages, all contents", "why_tests_cant": "Universal over documents, content streams and fonts.", "anchors": ["pdfsyntax/api.py:extract_page_text", "pdfsyntax/docstruct.py:get_page_fonts", "pdfsyntax/docstruct.py:prepare_font", "pdfsyntax/api.py:get_page_contents", "pdfsyntax/api.py:build_text_fragments"]}
{"id": "C92", "title": "The listing of a file covers it, in aligned columns", "statement": "The lines that disasm prints all have the same length and show the values of each line in columns; the main lines give every region of the file in order, with positions and sizes that cover the file without gap or overlap up to the end (or to the first text that is no region); under them every entry of an xref table or xref stream and every embedded object has its line. An object is marked as not indexed exactly when no xref section points to it, an xref entry is marked exactly when it leads to nothing. The line of a header shows the version, that of an object its class, its filters in order, the size of the encoded data for 100 bytes, and its main entries (references as number and generation).", "quantifier": "all files, all regions, all entries", "why_tests_cant": "Universal over file contents; widths depend on all lines, marks on the whole chain of xref sections.", "anchors": ["pdfsyntax/cli.py:dump_disasm", "pdfsyntax/cli.py:print_disasm_columns", "pdfsyntax/cli.py:keys_in_line", "pdfsyntax/cli.py:filters_in_line", "pdfsyntax/filestruct.py:file_object_map", "pdfsyntax/filestruct.py:check_index_targets", "pdfsyntax/filestruct.py:check_not_indexed_objects"]}
{"id": "C93", "title": "Incremental updates keep a file made by another program", "statement": "Take any file that loads, edit the document with get_object, update_object and add_object, and save it with writefile; open the result and go on, any number of times. Each file starts with the bytes of the one before, so with those of the first file; it loads, and every object and the entries of the trailer (apart from Size and Prev) have the values the document had when it was saved. (Fails: when an object of an object stream is updated and another object of that stream is read, the update is lost.)", "quantifier": "all files (tables, xref streams, object streams, any number of revisions), all sequences of edits, all numbers of sessions", "why_tests_cant": "Universal over files made by any program, over edits and over the number of sessions: an induction over sessions, each preserving that the file is read in the same way when bytes are appended.", "anchors": ["pdfsyntax/api.py:loads", "pdfsyntax/api.py:writefile", "pdfsyntax/docstruct.py:update_object", "pdfsyntax/docstruct.py:add_object", "pdfsyntax/docstruct.py:commit", "pdfsyntax/filestruct.py:build_xref_sequence", "pdfsyntax/filestruct.py:build_revision"]}
{"id": "C94", "title": "ASCIIHexDecode and ASCII85Decode data written as the format requires is decoded", "statement": "For every content c and every text that stands for c in the PDF format (hexadecimal digits of either case, a last digit possibly missing, white space anywhere, the end mark '>'; or groups in base 85 with 'z' for four zero bytes, a shorter last group, white space anywhere, the end mark '~>'), decode_stream returns c for a stream with that single filter. (Fails: binascii.unhexlify accepts neither the end mark nor white space, so no ASCIIHex data of another program is decoded; base64.a85decode does not skip NUL and form feed.)", "quantifier": "all contents, all layouts of their encodings", "why_tests_cant": "Universal over contents and over placements of white space; encode_stream never produces these layouts, so round-trip tests do not meet them.", "anchors": ["pdfsyntax/filters.py:decode_stream"]}
{"id": "C95", "title": "Predicted data is decoded for each predictor of the format", "statement": "For every table of rows of n bytes (one component of eight bits), encoded under /Predictor 1, 2 or 10 to 15 (for PNG, each row with a filter tag of its own), compressed, with /Columns n in /DecodeParms, decode_stream returns the rows. (Fails for predictors 1 and 2 and for PNG rows filtered otherwise than Up: decode_predictor ignores its predictor argument and the tags.)", "quantifier": "all tables, all predictors, all filter tags", "why_tests_cant": "Universal over tables and choices of the filter of each row.", "anchors": ["pdfsyntax/filters.py:decode_predictor", "pdfsyntax/filters.py:decode_stream"]}
{"id": "C96", "title": "A shown string or array advances by the width of each glyph and its spacings", "statement": "After a string is shown with Tj, the text position has advanced by the sum over its characters of (width/1000 * font size + character spacing + word spacing if the code is 32) * horizontal scaling; after an array is shown with TJ, by the sum over its strings, less each of its numbers / 1000 * font size * horizontal scaling. (Fails: build_text_fragments adds both spacings once per string or array, and a fifth of a space for each number.)", "quantifier": "all strings and arrays, fonts, text states and transformation matrices", "why_tests_cant": "Universal over strings, widths and spacings; the error is 0 for one-character strings and for the default spacings, which are what tests use.", "anchors": ["pdfsyntax/api.py:build_text_fragments", "pdfsyntax/text.py:text_element_to_unicode"]}
{"id": "C97", "title": "structure describes the document", "statement": "structure(doc) gives the greatest of the versions of the header and of the catalog, the number of leaves of the page tree, the number of revisions, whether the trailer has an encryption dictionary, whether the file is linearized, whether it has hybrid sections, and the name of the standard paper whose sides are those of the media box of the first page ('unknown' when there is none); a document made by blank(name) is described as one page of that paper. Reading it changes no object. (Fails: a file whose only section is hybrid is said not to be.) The paper is described by its sides in whole millimetres, in inches to the nearest hundredth, and by its name. (Fails: millimetres are truncated instead of rounded.)", "quantifier": "all documents with a page tree, all media boxes, all paper names", "why_tests_cant": "Universal over documents, page trees with inherited attributes, and boxes.", "anchors": ["pdfsyntax/api.py:structure", "pdfsyntax/api.py:paper", "pdfsyntax/docstruct.py:hybrid", "pdfsyntax/docstruct.py:encrypted", "pdfsyntax/docstruct.py:version"]}
{"id": "C98", "title": "Objects of hybrid-reference files are found", "statement": "In a section with an xref table and a stream named by /XRefStm, an object is found at the place given by the table if it is in use there, otherwise at the place given by the stream; the index built from any sequence of sections, hybrid or not, holds these definitions, row by row. (Fails: the entries of the table of a hybrid section are dropped, so the objects that the stream does not repeat, e.g. the catalog, are lost.)", "quantifier": "all sequences of xref sections", "why_tests_cant": "Universal over sequences of sections and their entries.", "anchors": ["pdfsyntax/filestruct.py:build_index_from_xref_sequence", "pdfsyntax/filestruct.py:build_xref_sequence"]}
{"id": "C99", "title": "Objects are read however they are laid out", "statement": "parse_obj and parse_indirect_obj give the value that the format assigns to a text, however it is laid out: white space and comments between tokens or none where a delimiter separates them, signs and leading zeros of numbers, reals without digits on one side of the point, references split by lines, nested arrays and dictionaries, streams with any end of line after the word stream and before endstream, and any number of digits in the object number. (Fails: a comment after obj is taken for the object, a comment before stream hides the stream, a bracket in a comment ends the container.)", "quantifier": "all objects, all layouts of the grammars of Spec_Syntax.v, all surrounding texts", "why_tests_cant": "Universal over layouts of unbounded nesting; parsers pass tests on the layout of a few producers and fail on others.", "anchors": ["pdfsyntax/objects.py:next_token", "pdfsyntax/objects.py:parse_obj", "pdfsyntax/objects.py:replace_ref", "pdfsyntax/objects.py:parse_indirect_obj"]}
{"id": "C100", "title": "The object map describes each region", "statement": "file_object_map(fdata) gives, in the order of the file, what each region holds: an xref table with, for every entry line, the rank of its subsection and its rank in it (the object number being that of the subsection plus the rank), an xref stream followed by its lines with their section and rank, an object stream followed by its objects numbered from 0, any other region alone. (Fails: when the trailer dictionary is on the line of the word trailer, the trailer of the table is the word startxref and the startxref region is missing.)", "quantifier": "all files whose map is computed", "why_tests_cant": "Universal over files; counters kept across nested loops are right on one subsection and wrong on the next.", "anchors": ["pdfsyntax/filestruct.py:file_object_map", "pdfsyntax/objects.py:parse_xref_table_raw", "pdfsyntax/objects.py:parse_xref_stream_raw"]}
{"id": "C101", "title": "envelopes lists the members of the object streams", "statement": "envelopes(doc) maps each object stream number of the current revision to the ascending list of exactly the objects it holds, and has no other key; envelope_objects(doc) is the set of these numbers. (Fails: AttributeError when some object number of the document is not used.)", "quantifier": "all documents whose current row has an entry for every number", "why_tests_cant": "Universal over documents and over the order of their entries.", "anchors": ["pdfsyntax/docstruct.py:envelopes", "pdfsyntax/docstruct.py:envelope_objects"]}
{"id": "C102", "title": "Files with xref tables made by other programs are read and updated", "statement": "loads(file) of a file whose xref tables, linked by /Prev, are laid out as the format allows (any end of line, any number of digits, blanks after an entry or a subsection header, several subsections, white space or comments before startxref) gives a document in which each object has the value written where the newest table that has it in use points, an object that no table has in use has no value, and the trailer entries other than /Size and /Prev are those of the newest table; any number of sessions of editing and saving only append to such a file and keep these values. (Fails: an object freed by a newer table keeps its old value; a blank after the word xref makes the table be read as an empty one.)", "quantifier": "all files with linked xref tables, all layouts of the tables and objects, all sequences of editing sessions", "why_tests_cant": "Universal over layouts, table contents, chains of revisions and editing histories.", "anchors": ["pdfsyntax/objects.py:parse_xref_table_raw", "pdfsyntax/filestruct.py:parse_xref_table", "pdfsyntax/filestruct.py:build_xref_sequence", "pdfsyntax/filestruct.py:build_index_from_xref_sequence", "pdfsyntax/api.py:loads", "pdfsyntax/docstruct.py:get_object"]}
{"id": "C103", "title": "squash keeps the version of the document", "statement": "If version(d) is v then version(squash(d)) is v, whether v comes from the header of the file or from the /Version of the catalog, and the file written from squash(d) starts with %PDF-v.", "quantifier": "all documents, headers and catalogs", "why_tests_cant": "Universal over documents, renumberings and the two places a version can come from.", "anchors": ["pdfsyntax/docstruct.py:squash", "pdfsyntax/docstruct.py:version"]}
{"id": "C104", "title": "Object streams made by other programs", "statement": "parse_object_stream of the dictionary and the data of an object stream gives the numbers of its header, in order, each with the object written at the same rank after /First, whatever white space separates the tokens, however the objects are laid out and whatever offsets the header gives. (Fails: a comment between members or a member that is a reference shifts the members, a number at the very end of the data is not read, an object stream with no member is an IndexError.)", "quantifier": "all object streams with at least one member, all layouts of the members", "why_tests_cant": "Universal over the members and the ways of writing them.", "anchors": ["pdfsyntax/objects.py:parse_object_stream", "pdfsyntax/objects.py:next_token", "pdfsyntax/objects.py:parse_obj"]}
{"id": "C105", "title": "Xref streams made by other programs", "statement": "parse_xref_stream_raw of an xref stream gives, for each object number of /Index (of 0 to /Size - 1 without /Index) in order, what the fields of its row say, for any widths of the three fields: free, in use at an offset with a generation, or member of an object stream; rows of unknown types are ignored. parse_xref_stream gives exactly the entries in use, except number 0. (Fails: a first field of width 0, that stands for type 1, is read as free; a subsection of no entry takes the row of the next one.)", "quantifier": "all xref streams with a first field of at least one byte and non-empty subsections", "why_tests_cant": "Universal over widths, subsections and contents.", "anchors": ["pdfsyntax/objects.py:parse_xref_stream_raw", "pdfsyntax/objects.py:expand_xref_index", "pdfsyntax/filestruct.py:parse_xref_stream"]}
{"id": "C106", "title": "Files with xref streams and object streams made by other programs", "statement": "For every file whose xref sections are xref tables or xref streams in any of the layouts that the standard allows, linked by /Prev, with objects in the file or in object streams: loads() returns a document in which, whatever objects were read before, every object has the value found where the newest section that lists it in use says (at an offset, or in an object stream), an object that no section lists in use has no value, and the trailer entries are those of the newest section. Updates of such a file by any number of sessions only append to it and keep the values of the other objects.", "quantifier": "all files made of such sections and objects, all sequences of reads, all sequences of sessions of edits and saves", "why_tests_cant": "every section is a table or a stream of any size, in any layout, and objects can be in any object stream; tests only see a few files from a few programs", "anchors": ["pdfsyntax/filestruct.py:160-313", "pdfsyntax/filestruct.py:316-378", "pdfsyntax/objects.py:289-404", "pdfsyntax/docstruct.py:218-294"]}
{"id": "C107", "title": "Iterating over a document gives each page once, in order", "statement": "for p in doc yields one document per page, in the order of the pages: the i-th has page i of doc and no other, with its inherited attributes, right /Count values, and nothing else of the document removed but what only the other pages reach. The loop ends, and doc is unchanged.", "quantifier": "all documents without object streams and all well-formed page trees whose pages do not lead back to the tree, any iteration order of sets", "why_tests_cant": "Universal over documents, trees and set orders.", "anchors": ["pdfsyntax/docstruct.py:DocIterator", "pdfsyntax/docstruct.py:Doc.__iter__", "pdfsyntax/docstruct.py:keep_pages"]}
{"id": "C108", "title": "repr and pprint_cache tell the pending changes", "statement": "repr(doc) gives the current revision and the number of objects that differ from the previous one; pprint_cache(doc) prints for every cell of the cache, ten by line, the letter of its change (a, u, d), x when it is unchanged and was read, - when it was not.", "quantifier": "all documents with two revisions or more", "why_tests_cant": "Universal over indexes and caches.", "anchors": ["pdfsyntax/docstruct.py:Doc.__repr__", "pdfsyntax/docstruct.py:pprint_cache"]}
{"id": "C109", "title": "pprint_page_hierarchy shows the page tree", "statement": "For a well-formed page tree the text printed has the page count and one line for each node and page, in order, indented by depth, pages numbered from 0 with their reference and contents; the document is unchanged.", "quantifier": "all documents and well-formed page trees, any text for references", "why_tests_cant": "Universal over trees.", "anchors": ["pdfsyntax/docstruct.py:pprint_page_hierarchy"]}
{"id": "C110", "title": "pprint_data_history describes each revision", "statement": "Column i of the table shows the kind of provider and the size of the data of revision i, the number of bytes that it adds and its cut. (Fails: the cuts are shown in the wrong columns, and a document that was not read from a file raises TypeError.)", "quantifier": "all documents", "why_tests_cant": "Universal over histories.", "anchors": ["pdfsyntax/docstruct.py:pprint_data_history"]}
{"id": "C111", "title": "The view of an object shows its content", "statement": "In the HTML view, the text of a dictionary has one line for each entry, /Type first, /Subtype next and the others in the order of the file, each with the text of its value; an array shows its items in order and is cut at 30 characters only when it is longer and has no link; a string of more than 30 bytes is cut at 30, with a mark exactly then; numbers, names, booleans and null are written in full, with the special characters of HTML escaped; a reference is a link to the position of the object. An entry /JS and a value /JavaScript are marked with a warning.", "quantifier": "all objects, nested to any depth, all indexes", "why_tests_cant": "Universal over objects: an induction over their structure, with the order of the keys, the escapes and the cuts of every value.", "anchors": ["pdfsyntax/display.py:follow_obj", "pdfsyntax/display.py:move_list_item"]}
{"id": "C112", "title": "overview prints the description of the document and hides protected texts", "statement": "overview prints, one line each and in this order, the version, the number of pages, the number of revisions, whether the document is encrypted, hybrid and linearized, the paper of the first page, and each entry of the information dictionary: its text, or None when it has none. When the trailer has an encryption dictionary no text is printed: each is replaced by #Encrypted#. No object changes.", "quantifier": "all documents with a page tree, all information dictionaries", "why_tests_cant": "Universal over documents; the output depends on the trailer, the catalog, the page tree and the information dictionary, read through a cache that changes between calls.", "anchors": ["pdfsyntax/cli.py:overview", "pdfsyntax/api.py:structure", "pdfsyntax/api.py:metadata"]}
{"id": "C113", "title": "pprint_index shows what each revision changes", "statement": "pprint_index prints one line for each object of the last revision, with one cell for each revision: '-' when the number did not exist, 'idem' when the entry of the object is the one of the last revision where it was alive, 'Deleted ' when it is deleted, otherwise its generation, version and document version; followed by its position when it is not the one of its previous entry, and by its object stream when that or its place in it changed. Then come the trailer, in the same form, and its positions and xref stream number. Columns are as wide as their widest cell, so that the bars of all objects are aligned.", "quantifier": "all documents of any number of revisions whose trailers have entries; both layouts (compact or not)", "why_tests_cant": "Universal over histories: what is printed in a cell depends on all the earlier revisions of the object.", "anchors": ["pdfsyntax/docstruct.py:pprint_index"]}
{"id": "C114", "title": "Listing the pages of a document ends", "statement": "For every document that has a page tree, flat_page_tree and pages return a result: the recursion of the code stops. It should also stop for malformed trees, where /Kids goes back to an ancestor; it does not: for every document whose root leads by /Kids, after kids that are finite trees, to a node that leads again to such a node, flat_page_tree, pages, page_layouts, rotate and remove_pages never return. The same happens when a kid of the root is None, 0 or an empty list, because it stands for the root.", "quantifier": "all coherent documents with a finite page tree; all coherent documents with an endless one; every fuel of the model", "why_tests_cant": "Non-termination cannot be observed by a test, and termination is universal over the shapes of page trees.", "anchors": ["pdfsyntax/docstruct.py:flat_page_tree", "pdfsyntax/docstruct.py:pages", "pdfsyntax/api.py:page_layouts", "pdfsyntax/api.py:rotate", "pdfsyntax/docstruct.py:remove_pages"]}
{"id": "C115", "title": "check_hr recognizes horizontal rules", "statement": "check_hr, called at the beginning of a line of a text, says true exactly when the line is made of spaces and of three or more of one of the signs * _ -, and then gives the position of the end of that line.", "quantifier": "all texts, all lines, whatever comes before and after", "why_tests_cant": "Universal over lines: the count of signs and the mixture of signs and spaces are not bounded.", "anchors": ["pdfsyntax/markdown.py:check_hr"]}
{"id": "C116", "title": "tokenize splits the lines of a markdown text and loses nothing", "statement": "tokenize always ends. For a text of ordinary lines it returns, for each line, tokens whose concatenation is the line, each of which is a sign, a run of at most three backquotes or a word without signs, with no two words in a row. Refuted beyond such lines: a last line without an end of line is lost, a hyphen inside a list item is put before its text, a doubled sign of emphasis raises NameError, a bracket at the end of the text raises IndexError.", "quantifier": "all texts (end); all texts of any number of ordinary lines: no tag, no hyphen, no leading space, # or [, no = at the end, no two signs of emphasis in a row, no horizontal rule", "why_tests_cant": "Universal over texts; the state of the tokenizer depends on all that precedes on the line.", "anchors": ["pdfsyntax/markdown.py:tokenize", "pdfsyntax/markdown.py:check_link_id", "pdfsyntax/markdown.py:str_between_spaces_tabs_nls"]}
{"id": "C117", "title": "transform renders titles and paragraphs and ends", "statement": "transform should return the HTML of every text. For texts made of titles, horizontal rules and paragraphs without signs that have a meaning, it returns them in order, each rule as <hr />, each paragraph between <p> and </p> and each title of n signs # between <hn> and </hn>, whatever line follows the title. Refuted in general: a bracket that is not closed in a title makes render go on for ever; the first words of a second line that has a dot or a parenthesis are lost; a sign + opens a list inside a paragraph; the address of an image is lost.", "quantifier": "all lists of titles of any level and paragraphs of any number of lines, separated by any number of blank lines; every fuel of the model for the refutation of termination", "why_tests_cant": "Non-termination cannot be observed by a test; the rendering is universal over texts.", "anchors": ["pdfsyntax/markdown.py:transform", "pdfsyntax/markdown.py:render", "pdfsyntax/markdown.py:put_line_in_context", "pdfsyntax/markdown.py:detect_new_block", "pdfsyntax/markdown.py:detect_new_or_closing_span", "pdfsyntax/markdown.py:html_text"]}
{"id": "C118", "title": "spatial prints the text of each page in order", "statement": "The command spatial prints the text of each page of the document, in the order of the pages, each followed by an end of line: the text of a page is made of its contents shown with the fonts of that page, whatever was read for the pages before. When a page has no text because of an error, the texts of the pages before it are printed and the command ends with that error. No object changes.", "quantifier": "all documents with a page tree, all contents and fonts of the pages", "why_tests_cant": "Universal over documents and numbers of pages; each page is read through a cache, and a dictionary of attributes, left by the pages before.", "anchors": ["pdfsyntax/cli.py:spatial", "pdfsyntax/api.py:extract_page_text"]}
{"id": "C119", "title": "A simple-font string gives the characters its predefined encoding assigns", "statement": "For a font whose encoding is WinAnsiEncoding, MacRomanEncoding or StandardEncoding, the text obtained from a shown literal string is, byte by byte, the character that the table of the standard assigns to the code. (Fails for the currency sign of MacRomanEncoding, for the WinAnsi codes that stand for a bullet, which raise, and for the quotes of StandardEncoding.)", "quantifier": "all strings of defined codes, in all literal notations", "why_tests_cant": "Universal over strings and notations; the failing codes are rare.", "anchors": ["pdfsyntax/text.py:apply_encoding"]}
