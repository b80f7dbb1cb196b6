# Formal model of scnlib: design

The subject is `eliaskosunen/scnlib` (sources in `/repo`), a C++ `scanf` replacement.
The code is read as text only. The model is written in Gallina, function by function;
every definition cites the file and lines it models.

## Conventions of the model

* Code units are `Z` (0..255 for `char`, 0..65535 for UTF-16, 0..2^32-1 for UTF-32);
  strings are `list Z`. `char` values are modelled by their `unsigned char` value.
* A position in a contiguous source is represented by the remaining suffix; consumed counts are lengths.
* Machine words are `Z` with the wrap (`mod 2^64` ...) written out.
* Outcomes: `Ok v`, `Err code` (the `scan_error::code`), `UB` (undefined behaviour: a violated
  `SCN_EXPECT`/`assert`, out-of-bounds read, dereference of an empty optional, signed overflow ...).
  `UB` is an outcome like any other, so theorems that state `Ok`/`Err` exclude it.
* Loops that are not structurally recursive use fuel; exhausting it is a separate outcome and
  theorems prove it does not happen.
* External routines (strtod/from_chars, std::locale facets, regex engines, stdio) appear only as
  parameters of the functions or of a `Section`.
* Integer types: `long` = 64 bits (LP64), `wchar_t` = 32 bits unless stated; little endian.

## Layout

`rocq/theories/`
* `Prelude.v` outcomes, error codes, list lemmas.
* `<Part>Model.v` definitions only. `<Part>Spec.v` independent specifications. `<Part>Proofs.v` lemmas.
* `<Part>Properties.v` only theorems closed by `exact`, examples and `Print Assumptions`.

## Plan per property

| Id | Modelled | Proof |
|----|----------|-------|
| C01 | `decode_utf8_code_point_exhaustive`, length table, `get_next_code_point`, `for_each_code_point` | arithmetic against a separate encoder spec |
| C02 | `validate_unicode` | decision against well-formedness table (Unicode 3-7); expected to be refuted for overlongs and surrogates, exact characterisation of the accepted language proved |
| C03 | same for 8/16/32 bit units | induction on length |
| C04 | `transcode_*` | round trip by induction; UTF-16 low surrogate constant expected to be refuted |
| C05 | `find_classic_impl` with its 8-byte blocks | refinement to per-code-point search |
| C06, C07 | `parse_integer_value` and overflow logic on wrapped 64-bit words | bounds per type and base; 64-bit case expected to be refuted |
| C08 | the above with a printer spec | corollary |
| C09 | SWAR word tricks | byte decomposition lemmas |
| C10 | `parse_integer_value_exhaustive_valid` | corollary of C09 |
| C11, C12 | `parse_numeric_sign`, `parse_integer_prefix`, integer reader | case analysis against grammar spec |
| C13 | contiguous and segmented variants of the reading algorithms | equivalence, with refutations where the paths differ |
| C14 | `basic_scan_buffer`, `forward_iterator`, forward buffer and file buffer `fill` | invariant over all operation sequences |
| C15 | file buffer `fill`/`sync` over an abstract stdio | refinement to abstract stream position |
| C16 | `basic_scan_ref_buffer` | invariant; refutation expected |
| C17, C18 | complete format string parser with explicit bounds checks (`UB` when reading at end) | no-UB by induction; print/parse round trip |
| C19 | parse context ids, visited bitmaps | bitset refinement; >64 arguments expected to be refuted; lock-step of the compile-time checker and the scan for accepted format strings |
| C20 | `on_literal_text` | against a per-code-point matching spec |
| C21, C22 | `vscan_internal` and the argument loop over the modelled readers | induction over format pieces |
| C23-C25 | string readers | against longest-run specs |
| C26, C27 | `take_width`, `counted_width_iterator`, `arg_reader`, every scalar reader | induction; each reader stops between code points |
| C28-C31 | bool, char, code point, pointer readers | against specs |
| C32 | `float_reader` source delimiting; conversion itself is a parameter | longest match against a regular grammar |
| C51 | localized floats: separators, their removal from the buffer | longest match; the number without its separators; refutation for the point as separator |
| C52 | `make_regex_flags`, `read_regex_matches_impl` for the three backends | requests to and answers of an engine against the documented ones; refutations by toy engines |
| C33 | `encode_types`, `basic_scan_args` | bit-field lemmas |
| C34-C37 | chrono parser, setters, `tm_reader` | case analysis, finite sweeps |
| C50 | chrono parser, checker and reader together | simulation of the values shown so far by the state of the reader; refutation by a small locale |
| C53, C54 | `time_since_unix_epoch`, `duration_cast`, `to_tm` | calendar as sums of year and month lengths; composed with C50; refutations by a UTC `mktime` and `SpecFloat` |
| C55 | `vinput`, `vscan_impl` on files, `sync_after_vscan` | calls composed over the remaining contents of the file; bounds on the characters looked at ahead; refutations by small files |
| C56 | `make_scan_buffer`, `make_vscan_result_range`, `vscan_generic` | induction on the division of the text into words or numbers; every success consumes; agreement of new forward buffers with strings; refutations by small arrays |
| C57 | `locale_ref`, `scan(locale, ...)`, contexts, `scanner_scan_for_builtin_type` | agreement of two lists of arguments carried through the format string parser; the flag L is the only way to the locale; refutations by computation |
| C58 | `scan_int`, `scan_value`, `scan` of one integer | the parser is run on each spelling with the reader left symbolic; then the two readers are equal step by step |
| C59 | `discard<T>` | two scans and the compile-time checker run in step: the checker fixes what each format-spec parses to, the scans keep equal positions and equal stores up to what is discarded; element readers are shown equal to argument readers |
| C60 | all of `scan` on narrow and wide strings | the two scans run in step on a text and its encoding: every reader gives the same value and leaves the encoding of what is left; ranges through the lockstep of shapes (LockstepProofs); refutations by computation |
| C61 | all of `scan` on strings | every reader and every step of the loop over the format string consumes a prefix and gives the same result if the rest is changed behind white space or cut; steps compose; ranges: a look for the closing bracket that failed fails again, as the first visible character is in front of the change; narrow strings by C60 |
| C62 | the same | C61 with nothing left; refuted for white space in the format string |
| C63 | `expected` and its bases | states of the storage with the objects living in it; every operation is shown to keep the flag in agreement with the storage, however its parts throw; simulation by a list of contents; refutations by small programs |
| C64 | `and_then_impl` and the like, `scan_error` | by cases |
| C65 | integer readers, `store`, the format loop, ranges | results equal or a listed error, through every reader and the loop |
| C66 | the format loop, `arg_reader`, every scalar reader, ranges and tuples | each field finds its frame and value; induction over the tokens with white space possibly taken already |
| C67 | `check_*_type_specs`, `format_string_checker`, `arg_reader` | case analysis over types and letters; the checker's run over the tokens computed exactly |
| C68 | `format_handler`, `basic_scan_parse_context` | the scans with and without numbers run in lockstep |
| C69 | `skip_classic_whitespace`, `arg_reader`, `format_handler::on_literal_text` | each reader skips, reads visible characters only, and stops where it stopped; the run over the tokens keeps the two texts alike; for any format string, valid or not, and for ranges the two scans run in step (LockstepProofs), with errors of any kind taken as alike |
| C70 | `char_to_int`, `read_matching_string_classic_nocase`, `fast_streq_nocase`, `float_reader`, `parse_presentation_type` | every reader commutes with making the letters of its source small (lockstep through the code); whole scans by running two of them in step (LockstepProofs), for any format string; trusted: `case_blind`, the library conversions do not tell cases apart |
| C71 | `default_arg_reader` and `arg_reader` for the same type, `parse_presentation_type`, `check_*_type_specs` | two format strings related field by field through the documented rows (SynonymSpec); each field's reading with either wording succeeds alike, lifted by the token-level semantics (C18_scalars_partial, C67_partial) |
| C72 | a user-defined scanner that calls `scan(ctx.range(), …)` (`NestedModel`), `vscan_internal` | runs of token lists as a function on states (position, values, white space last), which composes for concatenated token lists; the nested scan starts such a run anew |
| C73 | the reader started on an object with a value (`ChronoOverModel`) | two runs of the parser in lock step, related by: same position, same flags, fields of one are those of the other or else the initial ones; the year has a bound of its own |
| C74 | `tm_reader`, `datetime_setter` | which setters move which fields, against the table `field_of` of the parts of dates named by the specifiers |
| C75 | scanners that derive from scanners (`WrapperModel`) | of user scanners: the parser is natural in the store, so mapping the values maps the result, for any format string (`ValueMapProofs`); of built-in scanners: the two scans in step with the checker, as C59 |
| C76 | scans into objects that have a value (`InitialModel`) | by induction on the type a read into an object is the read into a new one, mapped by what becomes of the object; then `ValueMapProofs` for whole format strings, and `holds` (C38) for what containers hold |
| C77 | the reader of dates and times (`ChronoModel`), the facet std::time_get being arbitrary | a table of specifiers with what the facet is asked for and which parts it gives (`ChronoLocaleSpec`); the first step by cases of the table, then the relation between texts and states of C50 from the state it leaves |
| C78 | all readers of scalars, the format handler | no reader has this error on a non-empty source (by cases of the code, `quiet` in `EndProofs`), so it comes from the white space, fill and columns in front of the value, which are given on code points (C27); for format strings: an invariant of the handler with the places in format and source |
| C79 | all readers of scalars except strings, ranges and tuples, the format handler | each reader leaves a proper end of its source if it succeeds (by cases of the code, `shorter` in `ProgressProofs`); the handler: what is left plus the least length of each value in the log is no more than the source; ranges and tuples: nested induction on the shape, `least` in `ProgressSpec`; words: skipping stops at a code point that is not white space, so the search for white space does not stop there (C05); sequences of calls: induction, `calls` in `ProgressSpec` |
| C38 | ranges and tuples | induction on the list |
| C39 | `basic_range_streambuf` | invariant over all operation sequences |
| C40 | `format_string_checker` and run-time handler | simulation or refutation; accepted format strings are tokenised by induction on the checker's run |
| C41 | thousands separator reader | refutation expected for grouping; value theorem |
| C42 | bit helpers | byte decomposition |
| C43 | `fill_type` | round trip; wide fill expected to be refuted |
| C44, C45 | `vscan`, integer readers | first failing element; totality |
| C46 | `arg_reader` | refuted by witnesses; proved without width and precision |
| C49 | all modelled readers in one argument list | totality composed from the readers' totality and C17 |
| C47, C48 | string readers inside `arg_reader`, regex engine as a parameter | totality over arbitrary units; from format text to the engine call |

Where the faithful model violates a property the file proves a `..._refuted` theorem with a concrete
witness, and the strongest true variant as `..._partial`.

## Trusted base

* The Coq 8.16.1 kernel (and `vm_compute`).
* The reading of the C++ sources: the correspondence model/code is by inspection only.
* Axioms: none so far. Every theorem named in `MANIFEST.json` is followed by `Print Assumptions`
  and reports "Closed under the global context".
* Parameters that stand for code outside the model are universally quantified in the theorems, with
  the assumption made about them as a hypothesis:
  `regex_engine` (hypothesis `engine_ok`: it fails with an error or returns a suffix of its input; in C60
  `same_engine`: the narrow and the wide engine match the same text; in C61 `settled_engine`: what it matches does not depend on what follows the next white space, or no slash in the format string),
  for `regex_matches` `engine` (request to answer; `sound`: it matches a beginning of the text); that the
  options given to std::regex, Boost.Regex and RE2 mean what their documentation says is part of `make_request`,
  readers of user-defined arguments (`arg_ok`), locale facets,
  for dates `scan_double` and `in_unit` (conversion of fractional seconds), `time_get` and
  `decimal_point` (the locale's), for time points `mktime` with the contract `clock` (met by `mktime_utc`) and
  `nanos` (a double fraction in nanoseconds),
  for floats `fp` (fast_float, strtod, copysign) with the contract `converts`: both use the longest
  prefix in the grammar of decimal (fast_float) or decimal and hexadecimal numbers (strtod) of a text
  starting with a digit and report overflow and underflow; `FloatInstance` shows the contract can be met;
  in C70 `case_blind`: they do not tell letters by their case (met by the same instance),
  the behaviour of stdio (`stream`: how much each read delivers, how many characters can be given back).

## What is modelled

| File | Code | Model file |
|------|------|-----------|
| `src/scn/impl.h`, `scan.h` | UTF-8/16/32 decoding, validation, transcoding, length table | `UnicodeModel` |
| `src/scn/impl.h`, `impl.cpp` | whitespace predicates and block-wise search | `WhitespaceModel` |
| `src/scn/impl.h` | bit helpers | `BitsModel` |
| `src/scn/impl.h` | `read_*` algorithms, contiguous and segmented | `ReadModel` |
| `src/scn/impl.h`, `impl.cpp` | integer reading, including SWAR and thousands separators | `IntModel` |
| `scan.h` | format-specs and their parser; format strings; compile-time checker | `SpecsModel`, `FormatModel` |
| `scan.h` | argument packing | `ArgsModel` |
| `src/scn/impl.cpp` | `vscan` over a format string | `VscanModel` |
| `src/scn/impl.h` | text width, `take_width`, `arg_reader` | `WidthModel`, `ArgReaderModel` |
| `src/scn/impl.h` | string readers (word, `c`, sets, regex hand-over) | `StringModel` |
| `src/scn/impl.h` | readers for int, bool, char, wchar_t, char32_t, `void*` as arguments | `ScalarModel` |
| `scan.h` | grammar of format-specs, independent of the parser | `GrammarSpec` |
| `scan.h`, `src/scn/impl.h`, `impl.cpp` | buffers behind non-contiguous sources, their iterators, `sync_after_vscan` | `BufferModel` |
| `istream.h` | the `std::streambuf` over a source range | `IstreamModel` |
| `chrono.h`, `src/scn/impl.cpp` | chrono formats, the checker, `datetime_setter`, `tm_reader`, scanners of tm, datetime_components and single components | `ChronoModel` |
| `include/scn/scan.h:9721-9743`, `src/scn/impl.cpp:2698-2712` | scanning dates and times into an object that has a value | `ChronoOverModel` |
| `chrono.h` | `to_tm`, `time_since_unix_epoch`, scanner of time points | `ChronoPointModel` |
| `ranges.h` | `scan_str`, scanners of ranges, sets, maps, pairs and tuples over any element scanner; what the container keeps; the bound on the number of elements | `RangesModel` |
| `src/scn/impl.h`, `impl.cpp`, `scan.h` | int, word, bool, `char` and `char32_t` fields and literal text read through the iterators of a buffer, with the choice between the current segment and the whole source | `SegmentModel` |
| `src/scn/impl.h`, `impl.cpp`, `scan.h` | calls of `scan`/`input` on a file, one after the other, with what is given back to the file between them | `FileCallModel` |
| `include/scn/scan.h` | ranges that `scan` takes and returns, and the loop over the returned range | `LoopModel` |
| `include/scn/scan.h`, `docs/pages/guide.md` | nested scans in user-defined scanners (the nested source is taken to be in pieces as the outer one is) | `NestedModel` |
| `include/scn/scan.h`, `src/scn/impl.cpp`, `src/scn/impl.h` | the locale on its way from the call to the readers (std::locale itself, apart from its numpunct facet, is not modelled) | `LocaleModel` |
| `include/scn/scan.h` | `expected`: storage, lifetime of the contents, exceptions; `scan_error` (which members are deleted or `noexcept` for given types is not modelled beyond what the traits in `ExpectedModel.traits` say; builds without exceptions are not: `assing_value_over_unexpected` does not compile) | `ExpectedModel` |
| `include/scn/scan.h`, `src/scn/impl.cpp` | discarded values: `discard<T>` of scalars, at compile time and at run time | `DiscardModel` |
| `docs/pages/guide.md:291-335`, `include/scn/scan.h:5549-5650`, `src/scn/impl.cpp:228-243` | scanners that derive from those of built-in types, ranges and user types, which do not look at the locale of the call | `WrapperModel` |
| `include/scn/scan.h:9721-9743`, `include/scn/ranges.h:194-377`, `src/scn/impl.h:3079-3132` | scans with initial values, of scalars, ranges and tuples | `InitialModel` |
| `src/scn/impl.h`, `impl.cpp` | `float_reader` (delimiting, separators, sign), `reader_impl_for_float`, dispatch to fast_float and strtod | `FloatModel` |
| `src/scn/impl.h`, `regex.h` | regex flags per backend, `read_regex_string_impl`, `read_regex_matches_impl`, `regex_matches_reader` | `RegexModel` |

For a source that is not contiguous, `ReadModel`, `ArgReaderModel` and `VscanModel` describe the path
that goes through the whole source. `default_arg_reader` and `arg_reader` first look at the current
segment and read from it alone if they take it for contiguous. That choice is modelled in
`SegmentModel` for `{}` fields of ints, words, bools, `char` and `char32_t`, with ASCII sources in the
positive theorems; the theorems about other readers and about fields with specs say nothing about it.

## Not modelled

Memory allocation failure, exceptions, concurrency (file locking), compile-time-only machinery
(concepts, overload resolution), the float conversion routines, `std::locale`, the regex engines,
Windows code paths. Not yet modelled: see the properties that are absent from `MANIFEST.json`.
