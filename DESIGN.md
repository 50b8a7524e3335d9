# Formal model of desgeeko/pdfsyntax in Rocq (Coq 8.16.1)

## Method

* The model is a shallow embedding: every Python function is a total Gallina
  function over `list Z` (bytes), `Z` (ints), an inductive type of Python values
  (`obj`), records for index entries and documents. Exceptions are values
  (`Exc kind`). Unbounded loops run on explicit fuel and return `Loop` when the
  fuel is exhausted; theorems show that the fuel given is enough, or that *no*
  amount of fuel is (true divergence).
* Every definition of a `Model_*.v` file cites the file and lines of /repo it models.
* Where the code violates a property, the file proves `..._refuted` with a
  concrete witness computed by the kernel and, where it is useful, a conditional
  version named `..._partial` that says on which inputs the property holds.

## Files (`rocq/theories/`)

| kind | content |
|------|---------|
| `PyBase.v` | bytes, results, exceptions, decimal text, small Python primitives |
| `Model_*.v` | the program, definitions only: Objects, Filters, Filestruct, Text, Docstruct, Api, Graphics, Markdown, Display, Heap, Fonts, Layout, Structure, Disasm, Print |
| `Spec_*.v` | small specifications that do not use the functions of the model they specify |
| `Facts_*.v` | lemmas and proofs |
| `Cases_*.v` | concrete files and documents used as examples and counterexamples |
| `Props_*.v` | the property theorems `Cxx_...`, each closed by a lemma, with `Print Assumptions` beneath and an `Example` that its hypotheses can be met |

`tools/manifest.py` builds MANIFEST.json from the theorem names of `Props_*.v`
and the notes of `tools/notes.json`. `seeded/LOG.jsonl` records the wrong programs
against which the theorems were tried.

## What is modelled, file by file

| source | modelled | not modelled |
|--------|----------|--------------|
| objects.py | everything but `Stream.__repr__` | |
| filters.py | everything; zlib is an oracle | contents of zlib streams |
| filestruct.py | everything; the provider closures are data (`prov`) | file opening, `print` |
| docstruct.py | index, cache, reading, changes, object streams, commit, rewind, editing, concat, page trees, removal, squash, versions, widths, fonts, iteration, `__repr__`, `pprint_cache`, `pprint_data_history`, `pprint_page_hierarchy` (the text of a value is a parameter), `pprint_index`, `envelope_objects`; `max_num` is written in place in concat | |
| api.py | paper sizes of `blank`, `blank`, `loads`/`load`, `writefile`, `structure`, `metadata`, `page_layouts`, `rotate`, stream listing, filters, annotations, `compress`, contents, text fragments, `fonts`, `extract_page_text`, cross map | printing |
| text.py | everything | nothing; the tables of the codecs `mac_roman` and `cp1252` are transcribed by hand (compared with annex D of the standard by C119) |
| graphics.py | everything | |
| markdown.py | `render_html` and all it uses; `transform`, `tokenize`, `render` and all they use (not called by the rest of the package) | `tokenize_new`, `html_text_new` (unfinished, called by nothing) |
| display.py | everything that makes the HTML page | |
| cli.py | `file_map`, `browse`, table of fonts, `dump_disasm`, `overview`, `spatial` | argument parsing, files opened and written |
| layout.py | everything but `print_debug` | `print_debug` |

Functions that change Python objects in place are modelled twice. `Model_Docstruct.v`
gives documents value semantics. `Model_Heap.v` gives `get_object`, `update_object`,
`add_object`, `force_xref_stream`, `group_obj_into_stream` and `commit` on a heap where
lists, rows, entries, caches, trailers and object streams have locations and may be
shared; C34 relates both.

## Simplifications

* `bytes` is `list Z`; `str` is `list Z` of code points.
* Python floats are exact decimals `m * 10^e` (no binary rounding, no -0.0). Matrices of
  graphics.py and layout.py are over the rationals `Qc`.
* Complex numbers used as references are pairs of integers.
* Python's recursion limit, memory limits and the 4300-digit limit of int are not modelled.
* Dictionaries are association lists in insertion order with string keys.
* Sets are lists; where the iteration order of a set can be observed the theorem is
  stated for the order of the model and the comment says so (`remove_pages`,
  `group_obj_into_stream`).
* zlib is an oracle (class `Zlib`); theorems that need it assume
  `decompress (compress b) = Some b`. Examples use a codec that stores its input.
* Operations on Python types that the code is not written for (a float as an object
  number, a negative count given to `read`, `metadata` values that are not byte
  strings, an angle that is a bool or a float ...) return `Exc EUnsupported`. No
  theorem concludes `Exc EUnsupported`; several conclude that the result is `Ok`.
* `writefile` returns the bytes that are written and the document that is returned;
  the file system is not modelled.
* `browse` is the text printed; the paper size, which is computed and not shown, is left out.
* Heap model: containers nested in cached objects are values (only the list
  `/FirstLine` of an object stream has a location of its own); the objects a caller
  gives to `update_object` and `add_object` are given by location.
* `Model_Display.v` computes the text of all entries of a dictionary, in the order of the code.

## Properties

| id | model | proof |
|----|-------|-------|
| C01 - C04, C08 | next_token, parse_obj, serialize | induction on object trees, token-skipping lemmas |
| C05 | parse_obj with fuel | divergence by fixpoint of the loop, termination by progress |
| C06, C07 | references, LSTRING state | induction, refutation |
| C09, C10 | deep_ref_* | tree induction |
| C11 - C13 | filters | arithmetic, induction |
| C14, C15 | forge_stream, serialize and parse of streams | induction on content |
| C16 - C21 | xref writers and readers, revision layout | induction on entries, invariant of the fragment loop |
| C67 | linearized | chain of tokens, refutations |
| C22 - C24 | providers | arithmetic on slices, induction on stacks |
| C25 - C29 | get_object, update, add, commit | invariants over sequences of operations |
| C30 - C33, C71 | commit, rewind, writefile, loads | refinement, induction over histories and revision chains |
| C34 | heap model | frame lemmas, simulation of the value model, refutations |
| C35, C36, C40, C69 | squash, concat | induction, refutation |
| C37 - C39, C41, C42, C55 | pages, removal, dependencies, versions | induction on page trees, reachability |
| C43 - C45, C61 - C65 | text.py, text fragments | finite sweep lifted, induction |
| C68, C70, C83 - C87 | calls of api.py | invariants of documents, induction on page trees and lists of streams, refutations |
| C81, C82 | layout.py | sorting, grouping, induction on rows |
| C46 - C49 | graphics.py, width tables | induction, ring |
| C50 - C53, C57 - C60 | disasm, checks, hexdump, xref chain | induction |
| C66 | object streams, written and read | induction on the objects, token sequences |
| C92 | listing of a file | tiling of C50, widths as maxima, refutations |
| C93 | incremental updates of files made by other programs | stability of the reading under appended bytes, induction over sessions |
| C94 | ASCII encodings as the format writes them | relation of texts and bytes, induction over groups |
| C95 | predictors of the format | induction over rows |
| C65 | contents divided into several streams | tokens of the C99 syntax appended, same reading |
| C96 | displacement of a shown string or array | sum over glyphs, field arithmetic |
| C97 | description of a document | composition of reads that change no object |
| C98 | hybrid-reference files | relation of sections, induction over the sequence |
| C99 | objects in any layout | grammar of texts, mutual induction over objects and their elements |
| C100 | items of the object map | decomposition of the list of lines at each header, induction on the scan |
| C101 | members of object streams | induction on the row |
| C102 | files with xref tables made by other programs | inductions on the lines of a table and on the chain of tables; then C93 |
| C90, C91 | fonts of pages, text of pages | reading of values, induction on pages and names, refutations |
| C88, C89 | compress, saving with object streams and xref streams | invariants of new documents, layout of the file, reading back, refutations |
| C54, C79, C80 | display.py, cross map | induction on the page, refutation |
| C56, C72 - C77 | markdown.py | induction on lines, divergence |
| C103 | squash keeps the version | C35, then the renamed catalog; refuted when an old catalog is in an object stream (Props_StaleVersion.v) |
| C104 | object streams made by other programs | induction on the row of tokens; the header as an array of C99 |
| C105 | xref streams made by other programs | inductions on the subsections and on the rows |
| C106 | Files with xref streams and object streams made by other programs | the sections read by C101, C104 and C105 are put together by induction over the chain; the index is then the one of C93; coherence of the object streams gives the values whatever was read before |
| C107 | iteration over a document | induction on the steps of the iterator over C39 |
| C108 | marks of the cache | induction on the cache, with C27 |
| C109 | printed page tree | induction on the tree |
| C110 | history of the data | map over the revisions |
| C111 | view of an object | relation between objects and texts, induction over objects |
| C112 | overview | C97 and C70 in sequence, then the lines printed |
| C113 | table of the index | invariant: the remembered values are those of the last (live) entry; induction over revisions, widths by induction over lines |
| C114 | The listing of the pages ends for finite page trees; it never ends for trees with a cycle | induction on fuel with a set of nodes closed under /Kids (`endless`) |
| C115 | `check_hr` recognizes exactly the lines of three or more equal signs and spaces | induction on the line |
| C116 | `tokenize` ends, and splits ordinary lines without loss; four failures elsewhere | invariant of the character loop, measure on the position, refutations |
| C117 | `transform` renders titles, rules and plain paragraphs; it never ends on a title with an open bracket | runs of the loop composed line by line; cycle of states with a growing text |
| C118 | `spatial` prints the text of each page | C91 at each page, values kept between pages (Facts_Spatial.v) |
| C119 | Predefined encodings of simple fonts (text.py) | table sweep lifted by induction (Facts_Charsets.v) |

## Trusted base

* Coq 8.16.1's kernel, including its `vm_compute` conversion.
* The reading of /repo by which the model was written: the code is never executed here.
* `Print Assumptions` prints "Closed under the global context" for every theorem of
  `Props_*.v`: no axiom, neither of this development nor of the standard library, is
  used. (`coqchk -o` lists items of the standard library's module types that are loaded
  with `ssreflect`-style files; no theorem depends on them.)
* The class `Zlib` is a hypothesis of the theorems that mention it, not an axiom.
