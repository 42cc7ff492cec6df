# Formal model of to-miz/tm in Rocq (Coq 8.16.1)

Sources: `/repo` (single-header C/C++ libraries), read as text. Nothing is compiled or run.

## Layout

* `properties.jsonl` – the properties, `MANIFEST.json` – property -> theorem names and status.
* `rocq/theories/<Module>Model.v` – executable model; every definition cites the file and lines it models.
* `rocq/theories/<Module>Spec.v` – small independent specifications (only where the statement needs one).
* `rocq/theories/<Module>Proofs.v` – lemmas.
* `rocq/theories/<Module>Props.v` – the theorems named in the manifest, `Print Assumptions` after each,
  and `Example`s showing that the hypotheses are met by concrete non-trivial cases.
* `seeded/LOG.jsonl` – record of mutation experiments (wrong programs against the theorems).

## Modelling conventions

* Machine words are `N` (unsigned) or `Z` (signed) with explicit reduction modulo 2^k where C wraps.
* Out-of-bounds access, failing `TM_ASSERT`, signed overflow and other undefined behaviour are distinct
  outcomes of the model (`option`/inductive results), never silently defined.
* Loops become structural recursion (or fuel with an explicit out-of-fuel outcome; theorems then
  prove that enough fuel exists, or, for non-termination findings, that no fuel is enough).
* `malloc`/`realloc` are oracles (a parameter deciding success), addresses are abstract numbers.
* Output buffers are modelled as "list of cells of the buffer after the call" plus the returned size,
  so that partial writes and out-of-buffer writes are observable.
* A claim which the code violates is kept in full in `properties.jsonl`; the development proves
  (a) `..._refuted`: a concrete counterexample in the model, and (b) the strongest true statement,
  named `..._partial` when it covers only part of the claim.

## Plan per property

| Id | What is modelled | How it is proved |
|----|------------------|------------------|
| C01-C05 | tm_uint128.h UINT64 backend on pairs of N<2^64 | value function `hi*2^64+lo`, arithmetic with lia/nia, `N.testbit`, loop invariant for long division; De Bruijn scans by reduction to 33 / 65 table cases |
| C06,C07 | print_u128_w/scan_u128(_n) on byte lists | digits of a number specified by `Horner`; induction on digit lists |
| C08 | to_float_rm/to_double_rm on bits | specification: integer significand/exponent rounding; `_refuted` for carry out of the mantissa; `_partial` where no carry occurs |
| C09 | from_float/from_double on bit patterns | specification via scaled integers; `_refuted` for negative/huge |
| C10-C12,C14 | tm_hashmapx.h over abstract key/value/hash, allocation oracle | invariant + refinement to a function `key -> option value` over operation lists |
| C13 | integer key instance | `_refuted` for find/remove of the reserved key, proof for insert |
| C15 | fnv1a loop on N mod 2^64 | ring arithmetic mod 2^64 |
| C16-C18 | base64_encode_chars/decode_chars with output buffer and size | block induction; `_refuted` for exact-fit buffers and malformed padding |
| C19 | url_encode/url_decode with buffer | induction |
| C20-C24 | search/trim/tokenize on lists | specifications by quantifiers over positions |
| C25-C27 | compare_n etc. | order axioms by induction; `_refuted` for strnicmp and human compare |
| C67-C71 | null-terminated variants, words, reversal, prefixes, ignore-case search | agreement with the length based functions, quantified specifications; `_refuted` for reads outside empty strings |
| C28-C36 | UTF-8/16 codecs, validators, converters | table 3-7 grammar as an inductive predicate; round trip, longest prefix, two-call protocol; `_refuted` for skip_invalid, replace, extract |
| C37 | ignore-case loops over an abstract fold function | exact characterisation, `_refuted` for symmetry |
| C38 | generated UCD tables as Coq data | `vm_compute` over all codepoints by range lemmas |
| C72-C75 | the same tables | the same block-wise computation; `_refuted` for whitespace and ideographs |
| C76-C81 | case folding of texts, skip mode, comparison, counting, natural order | token streams, output stream invariant; `_refuted` for natural order |
| C39, C82-C84 | conversion of raw bytes, into a buffer and allocating | one fold over code values shared by both kinds of output stream; `_refuted` for BOM-only input, UTF-16 pairs, in-place replacement, refused allocation |
| C40-C44, C85-C87 | tm_conversion.h integer/bool/byte scan and print, for both settings of the build options | Horner specification, induction; `_refuted` for the smallest number, the default strnicmp, wide widths, empty buffers |
| C45, C95, C96 | scan_double/scan_float on IEEE doubles (Flocq) | literals as records, their value in R; error analysis of the multiplications and divisions; `_refuted` for zeros before a moved point, more than 18 digits, exponents of 511 |
| C46-C48, C88-C90 | StackAllocator, its guard and MonotonicAllocator on addresses | invariant over histories; `_refuted` for size wrap, padding, uninitialised first block |
| C49, C50, C91, C92 | id allocators with free list in slot memory | invariant over histories; `_refuted` for recycled generational ids, 32 bit offsets, iteration |
| C51-C55 | tm_bin_packing.h on Z rectangles | geometric invariant; area conservation; `_refuted` for MaxRects |
| C60-C64 | batch insertion, scores, MaxRects completeness/memory, clear/fit | same invariants; `_refuted` for reallocation, reset+clear, fit+clear |
| C65,C66 | creation/destruction and iteration of the hash map | same invariant; `_refuted` for a half-failed creation |
| C56-C59, C93, C94 | small_vector with live/dead slots and allocation oracle | refinement to lists over histories; `_refuted` for failing assign, reserve, swap, shrink_to_fit |
| C97-C104 | tm_json.h reader without Ex, documents, skipping, unescaping, context stack | grammar of RFC 8259 as inductive predicates; every token a lexeme and conversely; mutual induction over values; `_refuted` for final escapes, root integers, exponents, comments, lack of memory |
| C105-C109 | tm_cli.h: parser, validation, remaining arguments, validators | grammar of command lines as inductive predicates, one call = one step of the grammar, decision by induction on the length of the line; bits of given options = occurrences; `_refuted` for words after flags and attached arguments, limits without counter, missing names |
| C110-C120 | tm_xml.h: unescaping, reader, prolog, copy | productions of XML 1.0 as inductive predicates; a document is read token by token (induction over derivations); state machine of tokens and position as invariant of any sequence of calls; `_refuted` for buffer sizes, empty elements with attributes, comments, stray end tags, offsets, standalone="no", missing terminator |
| C121-C124 | tm_arrayview.h: UninitializedArrayView, makeRangeView, GridView | memory as a list, a view as three words; every operation refines the one on a bounded sequence and leaves the rest of the memory alone, by induction for histories; `_refuted` for adjacent and overlapping ranges, pop_back, erase(end()), grow |
| C125-C131 | tm_utility.h: order, alignment, byte order, mapToRange, isMemoryZero, clamp, flags | generic orders; bits and bytes; counting the values per result; `_refuted` for minmax with a functor, mixed signedness, flags narrower than the word |
| C132-C133 | tm_utility.h: floats | Flocq's binary32 and its error bounds; `_refuted` for infinity, the soft comparisons, lerp at 1 |
| C134-C135 | tm_polygon.h: triangulation, for any arithmetic and for binary32 | the ring of vertices left over as invariant (`clip`); cutting a triangle off takes its area away; small integers are exact in binary32; `_refuted` for large begin, missing room, large coordinates |
| C136-C138 | tm_bezier.h | rationals: the state after k steps tracks the curve; binary32: each step adds at least half of h; `_refuted` between the steps, past the end, 2^25 steps |
| C139 | tm_resource_ptr.h: histories over any number of pointers | conservation of resources as a permutation; `_refuted` for reset(get()) |
| C140-C144 | tm_async.h: calls of the main thread, workers, dispatch thread as interleaved steps | inductive invariant per slot (tokens in rings and threads, flags, events of the history) for any schedule and number of workers; ring positions for at most N dispatches; measure for termination; `_refuted` by schedules |
| C145 | tm_async.h: handles | arithmetic with overflow as None |
| C146-C150 | tm_print.h: printing of all argument types into fixed and growing buffers | format strings as pieces with a denotation; induction over the pieces, generic in the kind of buffer; `_refuted` by computation |
| C151 | tm_print.h: tmp_parse_print_format | induction over flags and digits |
| C152-C155 | tm_polygon.h: clipping, for any arithmetic whose < is asymmetric, and binary32 | two lists of places with links and the ring they form as invariant of insertion; the marking pass as a fold along the ring; emission as walks over arcs between crossings, with a matching argument for closed walks; `_refuted` by computation (the endless search by a fixed point of the loop) |
| C156 | tm_json.h: jsonToInt and relatives, with strtol/strtoul of an LP64 C library | induction over digits; a long integer without leading zeros is large |
| C157 | tm_json.h: jsonToBool, jsonGetInt and relatives, nil values | case analysis; letters in either case as a relation |
| C158 | tm_json.h: cached member lookup | the two searches cover all members, whatever the cached index; induction over the history |
| C159, C160 | tm_json.h: jsonResolveJsonPointer with its buffer as memory cells and the allocator as oracle | unescaping in place refines a function on texts (cells = output, gap, rest of the input); RFC 6901 as relations on texts, tokens and values; the log of the allocator as invariant |
| C161 | as C159, composed with the document of a text (C98) | the value of the document represents the tree, so does every place of it |
| C162 | print_double with digits groups, rounding step, fraction, sign; (uint64_t) of a double out of range is undefined | magnitude by interval runs of the loop over decades; remainders of the digit groups are exact; texts composed by `report_print` |
| C163, C164 | as C162; the value of the text by `literal_value` (C45) | error analysis of f * 10^p + 1/2 with Flocq; rounding step inert under `carry_free` |
| C165 | as C162 | exact sums |
| C166 | as C162 | instance of the general text theorem |
| C167 | print_float composed with scan_float (C45) | error bounds of both; gaps between floats |
| C168 | tm_json.h: the functions with suffix Ex (tokens, skipping, counting, documents) | a token of the plain reader is a token of the extended reader (step by step), then the induction over values of C97-C101 again |
| C169-C173 | as C168: keywords in any case, Infinity/NaN, unquoted names, comments, raw and concatenated strings | each lexeme described on its own (JxSpec.v), one call of jsonNextTokenEx consumes exactly the lexeme; `_refuted` by computation |
| C174 | as C168 | rest of the text as measure; every call is inside of the text or at an open exponent |
| C175-C177 | tm_async.h: tma_wait_all, tma_wait_any, with and without time, as steps of the main thread between those of C140 | every step of such a call is a step of a run without it (`reach`), so the invariant of C140 carries over; invariant per place in the call; measure (passes, places, weight of the pool) for termination |
| C178-C180 | tm_unicode.h, Unix: tmu_read_file, tmu_read_file_as_utf8_ex, tmu_write_file* over a tree of files with failing calls and refused memory | induction over the chunks read; case analysis over every failing call; C84 for the conversion, and that a converted text never lies in the block of the file (FiText); `_refuted` by computation |
| C181 | as C178: tmu_rename_file_ex | case analysis over the calls, frame of every call |
| C182, C183 | as C178: tmu_create_directory, tmu_create_directory_tree | induction over the slashes of the path with the prefix created so far |
| C184, C185 | tmu_current_working_directory, tmu_module_filename, tmu_module_directory | induction over the growth of the block |
| C186 | tmu_read_directory | induction over the entries |
| C187 | tmu_utf8_command_line_from_utf16 with C34 | induction over the arguments, layout of the pool |
| C188 | tmu_compare_file_time | arithmetic modulo 2^64 |
| C189, C190 | tools/merge: process_definitions, erase_undef_statements | induction over the occurrences found, with the words before and behind |
| C191 | tools/merge: get_indent, indent_range | induction over the lines |
| C192, C193 | tools/merge: merge and all below | correctness of every token, then a relation of source and result kept by the loop |
| C194 | tools/merge: the rounds of main | the names merged grow within a finite set; no octet 0 arises |
| C195 | tools/merge: merge on texts given by a grammar | induction over the grammar with the exact tokens |
| C196-C203, C206 | tools/unicode_gen: adding data, both prunings, element types, the generated accessors and their execution | invariant of the staged tables over the list of data; pruning keeps the map from code points to entries; the generated statements and expressions evaluate to the pruned cells; runs are read back at their offsets |
| C204, C205 | tools/unicode_gen: value_to_size, prune_duplicate_blocks | bounds of minimum and maximum; invariant of the marks |
| C207, C208, C210 | tools/unicode_gen: the grapheme break state machine and its table | the state is a function of the text read; all cases of state and property; induction over the text |
| C209 | tools/unicode_gen: lookup of break properties in the pruned tables | pruning keeps every cell |

## What is modelled, per module

### tm_uint128.h (U128*.v, Float*.v, Digits*.v, CTypeModel.v)
Modelled: the portable two-`uint64` backend (construction, comparison, addition, subtraction, multiplication,
division, shifts, bit operations, scans, population count), `print_u128_w`/`print_u128`, `scan_u128(_n)`,
`from_string(_n)`, `to_float/to_double` in all rounding modes and `from_float/from_double(_s)` on bit patterns.
Not modelled: the compiler-intrinsic backends (`__int128`, MSVC intrinsics, `_BitScan*`), C++ operator sugar.

### tm_bin_packing.h (BinPack*.v)
Modelled: every function except `guillotineOccupancy`/`maxRectsOccupancy` (one float division),
`binPackDestroy`, and allocation failure. `int` arithmetic is checked (`None` on overflow), array accesses are
checked, `realloc` inside the MaxRects split loop invalidates the cached `freeRects` pointer.

### tm_hashmapx.h (Hash*.v)
Modelled: the FNV-1a functions and one generated map (`create`, `destroy`, `rehash`, `grow`, `insert`, `insert_move`,
`find_index`, `find`, `get`, `remove`, `remove_index`, accessors) over abstract key, value, equality, hash, key copy and
allocation functions; arrays are `Null`, `Freed` or a list, use of freed memory is `Ub`; the recursion
insert -> grow -> rehash -> insert runs on a budget proved never to be exhausted.
Assumed about parameters (section hypotheses, discharged in the examples): equality decides `=`, every ordinary key
has a hash, element sizes are positive, no single request of 2^63 bytes or more is granted.
Not modelled: KEY_DESTROY/VALUE_COPY/VALUE_DESTROY/VALUE_MOVE side effects, the C++ iterator wrappers,
the macro preprocessing which generates the maps.

### tm_stringutil.h: codecs (Codec*.v)
Modelled: `tmsu_base64_encode/decode`, `tmsu_base64url_encode/decode`, `tmsu_url_encode/decode` with their helpers. Buffers
are lists of exactly the cells owned by the caller, a write outside is `None`. Sizes are unbounded (no wrap of size_t).
Specification: RFC 4648 by bit groups, RFC 3986 by an inductive grammar.

### tm_stringutil.h: text (Str*.v)
Modelled: the length based (`_n`) searches, unescaped searches, tokenizers, trimming, word boundaries, comparisons, natural
order, prefixes and suffixes, case-insensitive search, and the null-terminated variants (find*, tokenizers, stricmp, strnicmp,
compare, stristr), strnrev and memrchr. Memory is a list of bytes, pointers are positions, a read outside is `None`; texts
may overlap. memchr, memcmp, strlen, strstr, strspn, strcspn, strpbrk and strcmp are defined by their C contract.
Not modelled: the `_v` wrappers (they pass first and last), the char-typed C++ overloads, tmsu_strrev (strnrev over strlen).

### tm_unicode.h (Uni*.v, Ucd*.v)
Modelled: encode, extract, valid range, skip_invalid, append, the four conversions with `_ex` and `_dynamic_ex` in all validation
modes, truncating copy, counting, equality and comparison (octet-wise, ignoring case simple/full, natural), case folding of
texts, and the property lookup with all its tables (`UcdData.v` is generated from the table text of the header, lines cited there).
`tmu_utf8_stream` is the list of the remaining octets; two texts live at positions of one memory because address equality matters.
Not modelled here: the grapheme break transition table (unused by the code; see Gb*.v), file and console functions, `tmu_utf8_width`
(its assertions are compiled out).

### tm_unicode.h: bytes (Bytes*.v)
Modelled: lines 3771-4468: the output stream (fixed and growing), byte order mark detection, UTF-16/UTF-32 loops in both byte
orders, the UTF-8 copying loop, in-place validation, `tmu_utf8_convert_from_bytes` and `..._dynamic` with every granting or
refusing of allocations (`fresh`). The allocator returns a block of the size asked for (hypothesis of C83/C84).
Not modelled: wrap of size_t in sizes, the `tmu_contents` of a `Null` input block with size 0.

### tm_unicode.h: files (Fi*.v, Fo*.v)

The Unix variant (lines 6702-6910, 6932-7200, 7342-7375, 7484-7832). The operating system is a small model in FiModel.v:
a tree of files and directories named by the components of their paths, a list that says which of the coming calls fail (with the
error number and how much was done before), a list that says which requests for memory are refused, and the numbers of live blocks and open
handles. The calls stat, mkdir, remove, rename, fopen, fread, fwrite, fclose, getcwd, readlink, readdir behave as POSIX
says on that tree. A write shows in the tree when the file is closed; a failing fclose may keep only a part.
Assumed: a failing call never sets errno to ENOENT, EEXIST or ENOTDIR by itself (`fault_errno`), only regular
files are renamed, nobody else changes the tree, `malloc` fills the block with an arbitrary but fixed octet.
Not modelled: the part `..`, symbolic links, permissions, open files during removal, files of 2^63 octets, the Windows
variant, tmu_file_timestamp, tmu_open_directory and tmu_close_directory (the listing starts from an open stream), the console,
the array of pointers of the command line (offsets into the pool instead).
The conversion inside of tmu_read_file_as_utf8_ex has its own oracle for memory (as C84).

### tm_conversion.h: integers and booleans (Conv*.v)
Modelled: scan_{i,u}{32,64}(_n), scan_bool(_n) over the comparison (the library's tm_strnicmp and, as a reference, one
like strncasecmp), get_digits_count_*, print_{i,u}{32,64}, print_decimal_*, print_hex_*, their _w variants,
print_hex_bytes, print_bool, tmc_print_string, tmc_print_zero_padded_u64; for every combination of "assertions
checked or compiled out" and TMC_CHECKED_WIDTH. The 32 and 64 bit hexadecimal and general functions have the same
text and share one definition. Texts are lists of octets; `char` is taken as unsigned, which no compared character
distinguishes. Not modelled: TMC_CLAMP_ON_RANGE_ERROR (does not compile, text), wide characters, the C++ wrappers.

### tm_conversion.h: floating point scanning (Fp*.v, Dbl*.v)
Modelled: lines 1372-1747: scan_double(_n), scan_float(_n) and their helpers. Doubles and floats are Flocq's
`binary_float 53 1024` / `24 128`, all operations round to nearest even (the default mode) without extended precision;
one NaN. The digit accumulation in uint64 wraps, the table of powers of ten is indexed with a check, `TM_ASSERT`s are
checked. Lengths are assumed to be at most INT_MAX (the code keeps them in ints).

### tm_conversion.h: floating point printing (Pd*.v)
`PdModel.v` models print_double, print_float, tmc_print_zero_padded_u64, print_magnitude and print_PowersOfTen over Flocq's binary64 with
every operation rounded to nearest even. The value of a nan carries no sign in Flocq's type, so the sign bit of a nan is a separate argument.
tm_size_t is unsigned; a subtraction that would wrap around is undefined in the model. The build defines TMC_CLAMP_ON_RANGE_ERROR. PF_FIXED,
PF_SCIENTIFIC and PF_HEX are documented as not implemented and do nothing. x87 excess precision is not modelled.
`PdSpec.v` says what a plain decimal text is; `carry_free x p` says that x plus half a unit of digit p stays below the next integer, with
room of a relative 2^-51.

### tm_allocator.h: stack and monotonic allocators (Alloc*.v)
Modelled: `StackAllocator` (construction, allocate/reallocate/reallocate in place/free of bytes, owns, remaining, clear,
state), `StackAllocatorGuard`, `MonotonicAllocator` (construction, allocation). Addresses are N with 64 bit wrap, memory is a
function from addresses to octets, `memcpy` of overlapping ranges is undefined; with and without assertions.
Not modelled: the `tmal_mmap` system calls (an oracle returns an address or 0; the proofs assume mappings that do not
overlap and stay below 2^64), the typed template wrappers, `std_malloc` style adapters, destruction of the monotonic allocator.

### tm_allocator.h: id allocators (Id*.v)
Modelled: `FixedSizeIdAllocator` and `FixedSizeGenerationalIdAllocator` (construction, create, destroy, data lookup, free list
threaded through slot memory, growth with an oracle for realloc, iterators of the generational one, the place of
elements in slots). `int32_t` overflow is undefined, `uint32_t` wraps; memory is a map from offsets to 32 bit cells, `None` if
never written; realloc keeps the contents. Not modelled: move construction/assignment, release of memory, the typed wrappers' casts.

### tm_small_vector.h (Sv*.v)
Modelled: `small_vector<T, N>` with `malloc_allocator_tag` and `no_allocator_tag`: growth, insertion (one, many, range, emplace),
removal, resize, reserve, assign (count, foreign range, own range), destruction, shrink_to_fit, copy/move construction and
assignment, swap. Storage is a list of slots that are dead, hold a value, or hold a moved-from object; elements are either
trivially copyable or have no trivial operation. Arguments may alias own elements. `SvHist.v` defines histories, their meaning on
lists and when a call is allowed (positions in range, byte counts below 2^63, not the calls refuted below).
Not modelled: trivially destructible but not trivially copyable types, TM_REALLOC_IN_PLACE, custom size types, ranges whose
iterators are not forward, comparison operators, element access, initializer lists (the range functions).

### tm_json.h (Json*.v)
Modelled: `jsonMakeReader`, `jsonNextTokenImplicit` (strings, numbers, literals, comments, brackets, all flags it looks at),
`jsonNextToken` with its context stack, `jsonIsValidUntilEof`, `jsonSkipCurrent`, `jsonCopyUnescapedString`, `jsonAllocate`,
`jsonMakeDocument`, `jsonAllocateDocument`. The buffer is a list of bytes; reading behind it, writing behind the nodes counted
first and a failed assertion are `None`. The pool is modelled by its bookkeeping (address, size, capacity with wrap), the nodes by
values. Lines, columns and offsets are unbounded numbers, `depth` and `memberCount` are assumed not to overflow, TM_MALLOC is
assumed to succeed in jsonAllocateDocument (the code does not check it).
Theorems cover the flags trailing comma, '=', plus sign and hexadecimal; the flags for comments, single quotes, multi-line strings
and leading/trailing points are in the model and appear in refutations only.
The functions with suffix Ex (JxModel.v): `jsonNextTokenImplicitEx` with comments of three kinds, unquoted names, quoted, raw and
concatenated strings, keywords in any case, Infinity/NaN; `jsonNextTokenEx`, `jsonIsValidUntilEofEx`, `jsonSkipCurrent` and the
counting functions with ex, `jsonCopyConcatenatedString`, `jsonMakeDocumentEx`, `jsonAllocateDocumentEx`. isalpha/isspace are those
of the "C" locale; extended whitespace is the byte test of the code. C168 (documents) covers every combination of flags except
escaped line breaks, concatenated strings and a differing hexadecimal flag; C169-C173 are about single calls of jsonNextTokenEx in
any state (`inside` relates the reader to its buffer); C174 excludes escaped line breaks, C++ raw and concatenated strings,
numbers without digits next to the point. Not proved: documents with the extensions as a whole (a grammar of the extended
language).
Not modelled: conversions to float and double.
Queries, conversions, pointers (Jq*.v; C++ build, LP64, fallback conversions on top of stdlib.h, "C" locale): values carry the
field lastAccess of objects; strtol, strtoul and their 64 bit versions are modelled by their description in C11 7.22.1.4
(part of the trusted base); the buffer of jsonResolveJsonPointer consists of cells that are unwritten at first.
Spec (JqSpec.v): integer texts, `points` (RFC 6901), `pointer_text`, `percent`, `orderly` calls of the allocator, `tpoints` on the
tree of a text.

### tm_cli.h (Cli*.v)
Modelled (char build, assertions enabled): tmcli_make_parser_ex, tmcli_next, tmcli_validate, tmcli_get_remaining_args,
tmcli_get_flag_pair and the three validators. Strings are lists of bytes, null pointers `None`, the unsigned objects
options point to are cells of a memory. Not modelled: texts written to the error log, wchar_t builds, values outside the
enumerations, calls of tmcli_next after it returned an error (asserted against) or with different tables.
Spec (CliSpec.v): `cmdline lax os free argv es rest` describes which words form which options; `lax = true` are the usual
rules, `lax = false` adds the restriction the code imposes (see findings).
### tm_xml.h (Xml*.v)
Modelled (assertions enabled): tmxml_make_reader(_ex), tmxml_next_token and all it calls, tmxml_unescape_string,
tmxml_process_character_data, tmxml_read_prolog, tmxml_copy_string. The document is a list of bytes; the byte behind a
string view is an option (`None`: not readable). The buffer of the reader is its size, allocation an oracle. `None` is a
failed assertion or a read outside. Not modelled: tmxml_destroy_reader, the contents of the buffer between calls (tokens
carry their text), size computations above 2^32 beyond the counters of locations.
Spec (XmlSpec.v): `document lim doc evs` relates a document to its tokens by the productions of XML 1.0; `lim = true`
excludes what the reader cannot read (see findings). `walk` is the order of tokens, `trimmed`, `collapsed`, `unbroken`
the whitespace options, `declaration`, `doctype` the prolog.

### tm_arrayview.h (Av*.v)
Modelled (assertions enabled): UninitializedArrayView (all members but constructors, iterators and conversions),
makeRangeView, GridView's size, index, coordinates, at, query. Memory is a list of elements, addresses are indices into
it (so elements have size one), sizes are 64 bit words; memcpy of overlapping ranges is `None`. Not modelled: Array and
ArrayView (accessors only), element types with constructors of their own (the code copies with memcpy).
Spec (AvSpec.v): `bounded c xs o ys`: the effect of an operation on a sequence of at most c elements.
### tm_utility.h (Ut*.v)
Modelled: utility::min/max/minmax/median, isPowerOfTwo, isAligned, getAlignmentOffset, swapEndian, isMemoryZero,
promote_as_is_to, clamp, mapToRange (both versions), the flag macros, floatToleranceComparison, the soft comparisons,
lerp, remap, safeDivide. Not modelled: bit_cast (identity on representations), copy, move, fill, compare, zeroMemory (calls
of the library), defer and WITH (control flow macros), swap.
Spec (UtSpec.v): strict weak orders, `sorts`, `byte`; floats: real numbers.
### tm_polygon.h (Pg*.v)
Modelled: isPolygonClockwise, isTriangleClockwise, pointInsideTriangle, isTriangleEar, triangulatePolygonEarClipping
(assertions enabled, TMPO_CLOCKWISE_TRIANGLES = 1, tmpo_index 16 bit). The arithmetic is a parameter; PgFloat.v instantiates
it with binary32 (no excess precision). Spec (PgSpec.v): `clip`, the ring and the triangles cut off it; `area2`, `tri2`:
twice the signed area in integers.
### tm_polygon.h: clipping (Cl*.v)
Modelled: clipPolyTransformData, clipPolyCreateVertex, clipPolyCreateIntersection, clipPolyLineIntersectionFactor,
clipPolyFindIntersectionIndex, clipPolyFindIntersections, clipPolyPointInsidePoly, clipPolyMarkEntryExitPoints, clipPolyEmitClippedPolygons and
clipPolyEmitClippedPolygon (assertions enabled, tmpo_index 16 bit). The search for crossings has fuel (`Some None`: not ended yet). Not
modelled: nextPoly (never read), the narrowing of the vertex count in the result.
Spec (ClSpec.v): `ring` (corners and, per edge, crossings, linked both ways), `crossed`, `ascending`, `placed`, `inner_point`
(even-odd rule over the outline), `written` (closed walks along the rings).
### tm_bezier.h (Bz*.v)
Modelled: all three functions, over a parameter for the arithmetic: rationals (exact) and binary32. Spec (BzSpec.v): the
Bernstein form.
### tm_resource_ptr.h (Rp*.v)
Modelled: all members that change anything; destroy_resource is recorded, T() is no resource. Spec: `given`, `held`
(RpProps.v).

### tm_async.h (As*.v)

The Windows implementation, as a transition system. One step is one access to shared data: taking or giving a
semaphore, the atomic increment of a ring position, exchanging a ring entry, reading or setting a flag or an event,
starting and ending the work. Labels choose who goes next; a label that is not possible now gives None, so the
theorems hold for every interleaving, fair or not. Modelled: tma_push_async_work with the slot bookkeeping (deferred
or not), tma_dispatch_async_work, tma_wait_single(_for), tma_free_async_work, the two ring queues, the worker loop,
the dispatch thread with its array. The history (`log`) records what a user can observe. The ring size N, the block
size C, the number of workers and whether assertions are compiled in are parameters; the examples and refutations
use the 256 of the code. A failed assertion, an access outside of an array and exit() set `fault`.
Not modelled: weak memory (each step is atomic and seen at once; the code uses acquire, release and compiler
barriers), failures of the system calls, cancellation and progress, storage in slots, startup and
shutdown, the C++ wrappers. Work functions do not call into the pool (the code asserts that for push and free).
`careful` (AsSpec.v) delimits the schedules of the positive theorems: no timed wait, no push while a free slot's event is set or
about to be. Programs that free nothing before their last push are careful under every schedule (phases_careful).

### tm_async.h: several handles (Aw*.v)

On top of As*.v: tma_impl_wait_all_infinite, tma_impl_wait_multiple_chunk, tma_impl_wait_multiple. The call is a program
counter with its local variables (`all_call`, `chunk_call`, `wpc`); one step is one access to shared data as above, and the
calls it makes (dispatching, taking a slot out of the ring, executing) are the steps of AsModel. The number of objects
the system can wait for is a parameter K; examples and refutations use 64. WaitForMultipleObjects behaves as
documented: it fails if a handle is given twice, else reports the first object that is set, or all. With more than K handles and
no limit of time RegisterWaitForSingleObject and the semaphore are one step that picks any of the handles whose event
is set. Simplified: a time that is not zero may be over at any moment; creating the timer, semaphore and memory
for that case succeeds. `fine_call` (AwSpec.v) delimits the calls of C177, `xcareful` the programs.
Not modelled: failures of the system calls, the wrappers that take C++ containers.

### tm_print.h (Pr*.v)

The CRT backend (snprintf for integers and reals, strtoul for numbers). Modelled: tmp_snprint, tmp_print, tmp_string_format
and everything below: tmp_print_impl, tmp_print_escaped, tmp_parse_format_specifiers, tmp_parse_print_format, the printing of
every argument type but custom ones, signs, prefixes, padding, the sizes reported when the buffer is too small, growth of
the buffer with an allocator that may fail. Texts end in a zero byte that is not part of the list. The text snprintf
gives for a real is a parameter of the value (V_float, V_double): any function of the format. Writing outside of a
buffer, a failed assertion, signed overflow and running a pointer backwards are None.
`rounds` bounds the attempts of the grow-and-retry loop; the theorems hold for any bound of at least 4.
Not modelled: custom printers, TMP_STRING_WIDTH (1 per byte is assumed), the std::to_chars and tm_conversion backends, locales, fwrite
failing, operator overloads, print_newline.

### tools/merge/src/main.cpp (Mg*.v)

Modelled: next_token, skip_whitespace, concat_paths, parse_define_statement, erase_undef_statements, get_indent, indent_range,
process_definitions, merge_include_statement, merge and the rounds of main (main.cpp:41-521). A text is a list of octets, the stream a
position in the text with its terminator; reading outside, a failed assertion and a distance of 2^31-1 or more are None. `files` gives what
the file of a name holds, up to the first 0 of the name as for fopen; it does not change between rounds. Memory is unlimited.
`expands`, `ordinary` and `other_directive` (MgSpec.v) are the grammar of C195, `includes_merged` is the result of C192.
Not modelled: the command line, asking time() for the year (`year` is any text), failures while reading or writing.

### tools/unicode_gen (Ug*.v)

Modelled: to_flags, add_unique_run, add_unique_ucd_entry, add_to_multistage_table, the loop over the data, prune_duplicate_blocks, prune_trivial_blocks,
the shrinking of stage one, determine_min_sizes, and in generate.cpp the emission of the tables, the struct and its initializers, the runs and
the functions, as a `program` that `get_internal` and the getters execute (main.cpp 1076-1995, generate.cpp 57-810). The size of a block (128)
and of the pruned stage one (1025) are parameters B and P of all theorems. None: an assertion of the tool fails, it reads outside of a
vector, or what it writes does not compile.
The theorems about results speak of generation without prune_stage_two; C199 compares with it, and the theorems `_pruned_partial` carry
C196-C198 over to it, for blocks that are not of the form x y x...x y. The cells of p_one and p_two are those behind the conversion to
the element type; that the conversion loses nothing is C204_used_partial and C196-C198. C204 covers the two tables only, each without
its pruning, not the members of the entries or the runs. `datum` (UgSpec.v) is what the data say of a code point, `reached` the code points within
stage one, or beyond it when invalid code points are handled and some block is empty.
Simplified: indices are unbounded; the generated text is not modelled as text but as statements and expressions with their meaning.
Not modelled: parsing of the Unicode files and of the command line, the names in the generated file.

### tools/unicode_gen, grapheme breaks (Gb*.v)

Modelled: init_grapheme_break_transitions statement by statement, to_next_grapheme_break, get_grapheme_break_property on the tables behind
pruning (main.cpp 2067-2170), the table as generate.cpp 451-478 writes it, and the table of tm_unicode.h 3273-3290. `forbidden` (GbSpec.v)
are the rules GB3-GB13 of Unicode Standard Annex 29, version 11; `visited` (GbRun.v) are the positions that repeated calls give.
Not modelled: reading GraphemeBreakTest.txt.


## Findings (violations of the listed properties, all exhibited by `_refuted` theorems unless marked "text")

### tm_uint128.h
* to_float/to_double: the rounding carry out of the mantissa is dropped (2^25-1 to nearest gives 2^24).
* to_float UPWARD: the mask of discarded bits includes the mantissa's last bit (2^23+1 becomes 2^23+2).
* from_float: the exponent mask keeps the sign bit (-1.0f fails an assertion; -0.0f gives 2^128-1).
* from_double/from_float of negatives: `max - value`, one off two's complement.
* from_double_s accepts values of 2^128 and above.

### tm_bin_packing.h
* MaxRects overlap: 10x10 bin, 5x5, 5x10, 10x5 (short side rule): stale free count after an exact fit.
* MaxRects split loop keeps a pointer into the free array across a reallocation (50x50 example).
* binPackReset does not store the new size: a later clear returns to the creation size.
* binPackFitToSize on a full pack makes the free capacity 0: clear then leaves no free rectangle.
* guillotineFreeRectsSize(0) = 0 does not allow creation of a pack.
* (text) binPackCreateStatic leaves `allocator.freeFunc` unset, binPackDestroy on such a pack calls it.

### tm_hashmapx.h
* create: when the values array cannot be allocated the keys array is freed but the pointer kept; destroy frees it again.
* find/remove of the reserved key match empty slots (integer keys): remove succeeds and decrements the count.
* A refused nested growth inside rehash loses stored entries while the count stays.
* 17 keys with the same hash cannot be stored: insertion grows until memory is refused.
* (text) rehash runs VALUE_DESTROY on moved-from values; with the default shallow VALUE_MOVE a destroying map
  releases values that live on in the new table. Overwriting a present key near the threshold grows first.

### tm_stringutil.h: codecs
* base64 encode and decode compare with `<`: a buffer of exactly the required size does not get the last group.
* base64 encode does not count the last group when it does not fit: asking for the size with an empty buffer
  reports 0 instead of 2 ("a", url alphabet), 2 instead of 4 (padded).
* base64 decode accepts "AB=C" (a letter after '='); base64url decode accepts a single letter in the last group.

### tm_stringutil.h: text
* find_last_n with an empty needle answers the start; find_first_of_n and find_first_of_unescaped_n with an empty set stop
  at the first character; next_token_n with an empty set drops a character per call, the skipping variant never advances.
* next_token_n reports the last token together with `false`: `while(next_token)` loses it.
* trim_n of a non-empty blank text builds a view with the end before the start (assertion).
* strnicmp(a, b, n) ignores the n-th character, and when the first n agree the following one decides; so
  starts_with_ignore_case_ansi("https", "httpz") holds.
* human_compare_ansi_n: "001" = "1xx" and "001" = "1yy" but "1yy" > "1xx"; runs from 2147483392 on overflow an int.
* find_last_of / find_last_not_of on "" read before the string; without match they answer the start, not the end.
* find_char_unescaped on "" reads past the terminator.
* compare_ignore_case_ansi (null-terminated) has the opposite sign of compare_ignore_case_ansi_n.

### tm_unicode.h
* utf8/utf16 skip_invalid loses valid text behind an invalid unit.
* extract accepts overlong forms (C0 80) and does not look at the top bits of trail octets (C3 41).
* Conversion with validate_replace never terminates on invalid input.
* equals_ignore_case("ab", "a") is true, ("a", "ab") false; same for the comparison (0 against -1).
* is_whitespace misses tab, LF, VT, CR, U+0085, U+00A0, U+2029 and U+202F.
* Only the first and last CJK ideograph / Hangul syllable of each range is a letter; Hangul LV/LVT classes cover the range.
* human_compare: "0" ties with U+10FFFF, 4294967296 ties with 0, 3000000000 < 1, int overflow for large numbers,
  no termination on an overlong digit (C0 B0), "a0" < "a00" at the same address but equal at different ones.
* convert_from_bytes: a byte order mark with nothing behind it is kept as text; FF FE 00 00 is always UTF-32LE.
* convert_from_bytes, UTF-16: an unpaired lead surrogate swallows the next unit.
* convert_from_bytes_dynamic, UTF-8: replace computes `start - end`, the size grows by two too many per replacement and the memmove
  length can wrap; skip keeps only the text before the first invalid octet; a refused allocation for the terminator frees
  the caller's block, which the caller still refers to; EINVAL behind a byte order mark shifts the caller's bytes.

Files (Unix variant):

- A failing read leaves what was read to the caller together with the error; tmu_read_file_as_utf8_ex does not free it (C179_leak_refuted).
- The double free of C84 is reached by tmu_read_file_as_utf8_ex when the block cannot grow for the terminator (C179_double_free_refuted).
- The result of fclose is ignored: data lost on closing is reported as written (C180_lost_refuted).
- tmu_write_file_as_utf8 passes the flag for a byte order mark, which nothing reads on Unix (C180_mark_refuted). With tmu_atomic_write every write fails with EIO (text; the source marks it).
- Renaming with tmu_overwrite deletes the target after a failed rename and tries again; when this fails too, the target is lost
  (C181_lost_refuted). From a file to itself the only copy is deleted (C181_self_refuted).
- Absolute directories are never created: the path is cut at its first slash, and mkdir of the empty text fails (C182_absolute_refuted).
- EEXIST counts as success, also when a file has that name (C182_file_refuted).
- The directory part of a name ends at a tilde, colon or backslash as well: writing "n~b" creates a directory "n" (C183_refuted).
- A working directory of 199 octets (generally, length + 1 a multiple of 200) fails an assertion when the slash is added (C184_full_refuted).
- A failing getcwd leaves the block in the result together with the error (C184_leak_refuted).
- When readlink fails at once, tmu_module_filename frees its buffer on the stack (C185_refuted).
- `d_type & DT_DIR` takes sockets and block devices for directories (C186_kind_refuted).
- Times 2^63 or more apart compare the wrong way round (C188_refuted).

### tm_conversion.h
* scan_i32/scan_i64 of the smallest number negate the smallest signed value (undefined); so it cannot be read back.
* tm_strnicmp returns 0 when only the last of maxlen characters differs: scan_bool("trux") is true.
* scan_bool_n passes the length of the text instead of the word: "x" (length 1) is true with 4 characters reported,
  "t" even with a correct comparison; and tm_strnicmp reads one character behind the text.
* print_bool with an empty buffer fails an assertion instead of reporting EOVERFLOW.
* TMC_CHECKED_WIDTH: hexadecimal and general functions accept too large widths and leave leading characters unwritten;
  a hexadecimal 0 with width 0 is written into an empty buffer.
* TMC_CLAMP_ON_RANGE_ERROR declares MAX_VAL twice (text).
* scan_double: zeros before the point are skipped without their count being subtracted from the digits up to a point
  moved right: "0.5e1" is 0, "0.0512e3" is 5.1. Only 18 digits are kept on each side and the others are dropped without
  scaling: "1000000000000000000" is 1e17, "0.0000000000000000001" is 0. "0e309" is NaN. "7e-3" and "0.007" differ by one ulp.
* scan_double accepts "." as the number 0 with length 1.
* scan_double("1e511") fails an assertion; 512 digits behind the point read behind the table of powers of ten.
* print_double adds 1 to the value if rounding reaches the next integer, but keeps the digits behind the point: 0.99 with 1 digit gives "1.10",
  0.999 with 2 digits "1.100", 8.95 with 1 digit "9.9", 9.995 with 2 digits "10.99" (C163_refuted); the shortest text of 4.99999999999999467
  is "5.99999999999999" (C164_refuted). The change log (v0.9.2) lists the case 0.99 as fixed.
* With precision 0 the largest double below 1 is printed as "2", that below 2 as "3", that below 0.5 as "1", 2^52 + 1 as "4503599627370498" (C165_refuted).
* Numbers from 2^64 on, and some integers from 1.7e17 on, make print_double cast a negative or too large double to uint64_t; 1234567890123456768 is
  printed as 1234567890123456832. The documented range is +-1e19 (C162_refuted).
* Documented as exact at precision 14: print_float then scan_float loses small floats (2^-50 is read back as 0) and cannot print 2^64 (C167_refuted).

### tm_allocator.h
* StackAllocator: `size + offset` wraps: a request for 2^64-8 octets is granted.
* The padding in front of a freed block is not given back; it lets an older block pass for the most recent one, which
  then grows over a younger block. Frees in reverse order can run into an assertion (resize after free, smaller alignment).
* reallocate on a fresh allocator asserts (`last_popped_alignment` is 0, not a power of two).
* MonotonicAllocator: the first stack allocator of the array is used uninitialised.
* (text) `tmal_mmap` calls mmap without MAP_ANONYMOUS and with descriptor 0; the destructor of MonotonicAllocator frees
  the array but not the mappings; the move assignment of the id allocators leaves `other.size` as it was.
* FixedSizeIdAllocator: offsets are computed in 32 bits (two live ids share storage); ids of 2^31+1 and more resolve although never
  handed out; with initial capacity 0 create asserts.
* FixedSizeGenerationalIdAllocator: recycled ids never resolve, the create after that asserts; slot 0 is never recycled; ids repeat
  after 2^23 slots; elements not a multiple of 4 octets overlap the next header; iteration runs past the last slot.

### tm_small_vector.h
* reserve grows by `n - capacity` starting from the size: with capacity 10 and one element reserve(15) returns true and does nothing.
  Byte counts wrap: reserve(2^61) of 8 octet elements allocates 0 octets and reports the capacity.
* swap with an inline vector exchanges the capacities but not the storage, and relies on reserve: it writes out of bounds or lets a
  later push_back do so.
* shrink_to_fit destroys non-trivial elements twice, passes the inline buffer to realloc, and after a refused realloc sets the
  size to 0. (text) line 817 does not compile: the member without parameters hides the one called.
* A failing assign empties the vector; without an allocator it also takes the inline buffer away. Copy construction and assignment
  are silently empty without memory; moves lose the elements.
* insert(pos, 0, value) in front of elements moves each onto itself; assign(0, value) and the insertion of an empty null range assert on a
  vector without storage; emplace with an own element reads a freed or shifted element; a failing push_back(move(own)) loses it.
* (text) `owns` treats unrelated adjacent memory as own; `make_guts_from_sbo_default_constructed` is broken and unused.

### tm_json.h
* readNumber: an integer that ends with the buffer is reported with empty text (the document of "12" is empty, that of "12 " is
  not); "1e" at the end of the buffer reads one byte past it. (text) With the flag for leading and trailing points "." and
  ".e5" are numbers.
* jsonCopyUnescapedString stores a two-character escape at the very end of a string as its letter ("abc\n" becomes "abcn"); such
  escapes are not counted against the buffer, which overruns buffers shorter than the string.
* jsonSkipCurrent ignores comments: a bracket in a comment makes jsonMakeDocument count fewer values than it writes.
* Lack of memory: reported as an unexpected token inside containers; strings become null string views without an error. (text)
  jsonAllocateUnescapedString "gives back" unused bytes by moving the pool down and increasing its size.
* jsonNextToken accepts several strings at the root.
* (text) The column is wrong after literals and strings; with multi-line strings the offset of an error is computed from a
  null pointer.
* Member names are not unescaped, so a name with an escape sequence is not found (C161_escaped_name_refuted).
* jsonToInt and relatives: the end of hexadecimal digits is computed from the wrong pointer, the last two are dropped
  (C156_hexadecimal_refuted) and a single one violates an assertion (C156_hexadecimal_assertion_refuted); integers beyond 32 bits
  are truncated instead of giving the default (C156_truncated_refuted); texts that are no number give 0
  (C156_no_number_refuted). (text) jsonToUInt(" -1") is 4294967295; jsonToInt("1e3") is 1.
* With duplicate names the cached lookup makes the answer depend on earlier lookups (C158_duplicates_refuted); operator== of
  JsonObjectArrayIterator is operator!= (C158_iterator_refuted); indexing a nil array asserts (C157_nil_array_refuted).
* jsonResolveJsonPointer: names that begin with a digit cannot be reached (C159_digit_name_refuted), indices of 2^64 and more
  refer to the first element (C159_large_index_refuted), "00" and "0x" are accepted as indices (C159_loose_index_refuted), text
  in front of the first slash is ignored (C159_leading_text_refuted), percent-encoded tildes, slashes and digits are decoded
  too late (C159_encoded_tilde_refuted). (text) the size passed to realloc is that of pointers, eight times what is needed.
- jsonAllocateDocumentEx with no flag set accepts `{} "x"` and fails its assertion on `{}"x" ` (C168): jsonIsValidUntilEofEx sets
  no error for a token that is left over.
- Block comment without end: `/* true` is the value true; with two kinds of comments the pass that counts values is misled and
  five values are written where two are allocated (C171).
- C++ raw strings: the delimiter is stored shifted by one byte, so `R"x(a)x"` is rejected and `R"x(a)("` accepted; the byte behind
  the buffer is read at `R"x`; no comma is needed in front of a raw string in an array; raw strings are not possible as root
  (text) (C172). Python raw strings must consist of valid escapes.
- Concatenated strings: whitespace only behind the first one; escapes of the last one are kept; the terminating null is written
  outside of the buffer; the byte behind the buffer is read (C173).
- jsonSkipCurrent does not know single quotes: `[{'}':1},2]` with single quoted strings enabled is an error (text). U+00A0 in UTF-8
  is not skipped as whitespace, the byte A0 alone is (text).

### tm_cli.h
- `-v input.txt`, `--verbose input.txt` with an option that takes no argument: the next word is taken as its argument and
  rejected (C105_flag_word_refuted).
- `-oa.out input.txt`: "too many arguments", the next word counts as a second argument (C105_attached_word_refuted).
- A limit of two or more is ignored without a counter (C106_uncounted_refuted); a counter that does not start at 0 changes
  the limit (text).
- A null long name is accepted by tmcli_make_parser but passed to strlen (C109_no_long_name_refuted); an empty short name
  beside a long name fails an assertion in tmcli_next (C109_empty_short_name_refuted).
- Text: a single `-` is an error; digits are not accepted as second letter of a cluster; `--` followed by anything but a
  letter or digit ends the options silently; an argument starting with `-` must be attached (`--num -5` is an error);
  tmcli_validate prints a null long name.

### tm_xml.h
- A size of the buffer that is too small for a character of several bytes leads to a needed size that is still too small
  (C111_needed_size_refuted); the reader asserts on it: 63 letters and one umlaut abort (C115_assertion_refuted).
- With the newline flag the byte behind the text is read (C111_overread_refuted); text of spaces trimmed to nothing leaves
  the buffer unterminated (C111_terminator_refuted).
- Character references are taken modulo 2^32 (C110_reference_modulo_refuted); overlong encodings are accepted
  (C110_encoding_refuted); references with leading zeros are rejected (C110_long_reference_refuted).
- Reducing spaces loses the space behind a reference or bracket (C112_reference_refuted) and turns control characters into
  spaces (C112_control_refuted); CR LF becomes two spaces and CR may stay (C112_carriage_return_refuted).
- `<a b="c"/>` is an error (C113_empty_element_refuted), `<a b="c" />` reports the end of "c" (C113_close_name_refuted), `&`
  in comments is an error (C113_comment_refuted), so is `]]>` in attributes (C113_bracket_refuted). Text: processing
  instructions whose name starts with xml are errors.
- A stray end tag is reported as a token (C114_stray_refuted), again and again (C116_stray_refuted); so is an error in a
  comment behind the root (C116_comment_refuted).
- The closing quote is not counted in offsets (C117_offset_refuted), `=` instead of `+=` for columns
  (C117_column_refuted).
- standalone="no" is rejected (C118_standalone_refuted), garbage at the end of the declaration is accepted
  (C118_garbage_refuted), a processing instruction is taken as malformed declaration or hides the document type
  (C118_instruction_refuted). Text: comments before the document type are dropped, `>` in quotes inside of the document
  type is miscounted, standalone is initialised with true, the check for the reserved name looks at the wrong byte.
- tmxml_copy_string does not terminate its copy (C119_terminator_refuted).
- An end tag cut off by the end of the text ends the loop without error token (C120_silent_refuted).

### tm_arrayview.h
- assign rejects a range that ends where the view begins (C121_adjacent_refuted).
- insert of 2^31 or more values overflows an int counter (C121_counter_refuted).
- pop_back of an empty view sets the size to 2^64-1, its assertion `sz >= 0` cannot fail (C122_pop_refuted); grow wraps
  (C122_grow_refuted); erase accepts end() and moves 2^64-1 elements (C122_erase_refuted).
- assign accepts ranges that contain the view (C122_assign_refuted); insert of a range of own elements inserts the wrong
  ones (C122_insert_own_range_refuted).

### tm_utility.h
- minmax(a, b, c, comp) compares with `<` once (C125_comp_refuted). Text: median(a, b, c, comp) uses members `min` that
  MinMaxPair does not have; isPowerOfTwo(size_t) is ambiguous where size_t is unsigned long, so getAlignmentOffset does not
  compile there.
- mapToRange, 32 bit version: negative values lead below min; both: max - min may overflow (C128_range_refuted).
- clamp of a negative int with unsigned bounds gives the upper bound (C130_clamp_refuted).
- clearFlag with an unsigned flag narrower than the word clears the upper bits (C131_flags_refuted).
- floatToleranceComparison: infinity equals everything (C132_tolerance_refuted); floatLtZeroSoft compares with +BigEpsilon
  instead of -BigEpsilon (C132_soft_refuted).
- lerp and remap miss the end and leave the interval (C133_end_refuted); safeDivide may overflow (C133_divide_refuted).

### tm_polygon.h
- Indices of 65536 and above wrap (C134_large_begin_refuted); isPolygonClockwise is wrong for slim polygons far from the
  origin (C135_large_refuted).
- Clipping: the search for crossings may never end. A corner that lies on an edge is pushed off it by 0.0001 times the edge and
  the pair of edges is tried again; with coordinates around 5000 and short edges the push is lost in rounding (C152_endless_refuted).
- Pushing a corner after crossings with its edges were recorded can leave an odd number of crossings; walking the outlines
  then does not come back to the start and runs into the out of memory assertion (C154_odd_refuted).
- Outlines that do not cross: the inner polygon, or nothing, is the result whatever the directions ask for; the union of two
  polygons that lie apart is empty (C155_union_refuted). The header documents the limitation only for containment.

### tm_bezier.h
- evaluateBezierForwardDifferencer interpolates on the segment after the one t is in, and backwards: between multiples of h
  the result is off by up to two steps (C136_between_refuted); t > 1 leads beyond the end (C136_past_end_refuted).
- With 2^25 steps h vanishes in the sum and the loop does not end (C138_many_steps_refuted).

### tm_resource_ptr.h
- reset with the resource already held destroys it and keeps it (C139_reset_own_refuted).

### tm_async.h

- tma_wait_single_for stores event_signaled = 1 after a timeout as well: the next wait reports success, and a release does
  not wait (C140_timed_wait_refuted); its ring entry is left behind, so the next work in the slot runs twice (C141_twice_refuted).
- Workers set event_signaled before they set the event. A release in between lets the slot be used again; the late
  SetEvent then ends the wait for the next work while it runs (C140_late_event_refuted).
- Releasing work that is still queued withdraws it and then fails `TM_ASSERT(event_signaled || work_ring_pos < 0)` (C141_release_refuted).
- The dispatch thread waits for three handles and handles `WAIT_OBJECT_0 + 3` instead of `+ 2`: it ends when the ring has room again,
  and everything beyond 256 queued pieces of work is lost (C142_overflow_refuted).
- try_push gives up at an occupied entry after it took the permit and advanced the write position (text; needs a slow reader and a full ring).
- push_dispatch_array exits the process when malloc succeeds (`if (new_data)`) (text; part of dispatcher_step).
- A wait for deferred work that was not dispatched indexes the ring with -1 (C143_deferred_wait_refuted).
- tma_free_async_work does not raise available_count: slots of a block are used once (C144_reuse_refuted).
- An empty handle has the error code EPERM, id 0 (C145_empty).
- Polling for all handles takes the larger instead of the smaller of 64 and the rest as the size of a part (line 1416): with fewer than 64
  handles it reads beyond them (C177_poll_all_reads_refuted), with more an overflow of the buffer counts as success
  (C177_poll_all_refuted).
- Waiting for all with a limit asserts `slot->event == events_buffer[handle_index]` with the index of the handle instead of the one in the
  buffer (line 1237): it fails when an earlier handle is invalid or its work has ended (C177_assertion_refuted).
- `BOOL set_timer_result = !SetWaitableTimer(...)` (line 1559): a wait with a limit for more than 64 unfinished handles always returns an
  error (C177_timed_many_refuted). Behind it, WaitForMultipleObjects waits for the semaphore and the timer both (text).
- Waiting for any of more than 64 handles marks the slot with the number of the handle's index (line 1702) as done: a later wait
  for the work in that slot returns before the work begins (C177_any_many_refuted).
- A handle given twice makes tma_wait_all fail (C176_twice_refuted).
- tma_impl_dispatch_async_work never reports failure: an entry of the dispatch queue is always empty when its turn comes (dq_cas), so the
  branches that run the work at once instead are never taken.
- `pending` of a slot is never reset: later work in the slot is not tried on the waiting thread (text; no effect on C175, C176).

### tm_print.h

- The width of texts and booleans: `spaces = format.width - width` is taken after width was raised to format.width, so padding is
  written but not counted; what follows overwrites it (C146_padding_refuted). Characters ignore the width (text: print_arg).
- The closing brace is searched from the start of the literal text: "}}{}" computes a size from a pointer before the placeholder (C146_brace_refuted).
- Negating INT_MIN overflows; {:b} is printed in base ten by this backend (C146_values_refuted).
- A number that does not fit reports its size without sign, prefix and padding (C147_negative_refuted).
- Padding and moving the digits happen before the size is checked: writes past the buffer (C148_padding_refuted), also past the 200 bytes on the
  stack of print and of tmp_get_print_size (C150_padding_refuted).
- A sign with no room after it fails TM_ASSERT(maxlen > 0) (C150_negative_refuted).
- Unknown text inside of a placeholder is ignored, indices are taken modulo 2^32, strtoul also takes blanks and signs (C149_inside_refuted).
- tmp_parse_print_format scans numbers past the given length and then ignores them (C151_length_refuted).
- Text: ':' drops the initial formatting; "+" with negative zero gives "+-0"; {:a} of infinities fails an assertion; {:a} without '#' reports two
  bytes too many; the string_view overload of print measures the format with TM_STRLEN; after a final '{' of a string_view one byte too many is read.

### tools/merge

- An underscore ends a name: MERGE_YEAR_X becomes 2026_X (C189_whole_words_refuted).
- Removing an #undef removes the line break before it: lines are joined, behind a // comment the next line becomes comment
  (C190_undef_removed_refuted); two #undefs behind each other take the line before them with them (C190_two_undefs_refuted).
- Indentation by other than fours of spaces, and the first character of the output, do not count (C191_indented_like_directive_refuted).
- A definition in a last line without line break, or without value at the end, makes the next token be read behind the text (C193_total_refuted).
- A quote in a character constant hides the directives up to the next quote (C195_includes_expanded_refuted).
- `#define MERGE_X` without value takes the next line for the value (C195_empty_definition_refuted).
- Beginnings of the words include and define are taken for them: #inc, #d (C195_other_words_refuted).
- Text: a comment between include and the name makes the directive be ignored when a blank follows it; "./a" and "a" are two names, so that a
  cycle between them is merged twice before it is noticed.

### tools/unicode_gen

- A block x y x...x y (two or more x in the middle) is accepted as trivial since its second and fourth range have length 1, but generate.cpp
  looks at the length of the first range and writes `offset == 0 || offset == 2`: with prune_stage_two most entries of such a block are wrong
  (C196_refuted, C199_refuted: with letters at U+0001 and U+007F only, U+0003 is a letter).
- The width is computed but never written: the generated width function gives 0 for all code points (C202_refuted). With widths but without
  grapheme breaks the struct has a member more than the initializers, so that all that follow are shifted (C197_refuted).
- The test for the number of values of a decomposition is turned around: of a decomposition only the first code point is kept
  (C203_refuted: the program is the same for e + acute and e + grave).
- Code points beyond stage one are looked up in the block at `default_block_pos`, which is another one if no block is entirely unassigned
  (C200_refuted).
- The row of the state behind an emoji with joiner lacks the transitions to marks: the loop ends one state too early (main.cpp 2084). Emoji,
  joiner, combining mark has a boundary before the mark, against GB9 (C207_refuted). The table in tm_unicode.h has the same row (C210).
- Text: prune_stage_one reads stage_one[1024] although the data may cover fewer blocks; a table whose values are all 0 has size 0 and no type.

## Trusted base

* Coq 8.16.1 kernel (including `vm_compute`).
* The faithfulness of the hand-written model to the cited lines.
* Axioms: none in all files but `DblProps.v`, `UtFloatProps.v`, `PgProps.v`, `BzProps.v`, `ClProps.v` and `PdProps.v`: `Print Assumptions` at the end of each `*Props*.v` answers
  "Closed under the global context". The theorems of `DblProps.v` (C45, C95, C96), `UtFloatProps.v` (C132, C133), `PgProps.v` (C134's refutations, C135) `BzProps.v` (C138), `ClProps.v` (the theorems about binary32) and `PdProps.v` (C162 to C167) use the real numbers of the
  standard library and Flocq 4.1.0's proofs about IEEE operations; `Print Assumptions` lists for them (some or all of) the standard
  library's `ClassicalDedekindReals.sig_forall_dec`, `ClassicalDedekindReals.sig_not_dec`,
  `FunctionalExtensionality.functional_extensionality_dep` and `Classical_Prop.classic`.
* Flocq's definition of rounding and of the IEEE operations, as the meaning of C's `double` and `float` operations.
