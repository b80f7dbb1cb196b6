{
 "claims": [
  {
   "property": "C01",
   "status": "proved",
   "theorems": [
    "C01_decode_one",
    "C01_decode_one_valid",
    "C01_decode_all",
    "C01_decode_all_valid",
    "C01_decode_one_utf16",
    "C01_decode_one_utf32"
   ],
   "note": ""
  },
  {
   "property": "C02",
   "status": "partial",
   "theorems": [
    "C02_refuted",
    "C02_accepted_language_partial",
    "C02_lenient_strict_partial",
    "C02_well_formed_accepted_partial",
    "C02_validation_total"
   ],
   "note": "Refuted as stated: overlong forms and surrogates are accepted. Exact accepted language proved."
  },
  {
   "property": "C03",
   "status": "proved",
   "theorems": [
    "C03_step_progress",
    "C03_partition"
   ],
   "note": ""
  },
  {
   "property": "C04",
   "status": "partial",
   "theorems": [
    "C04_utf8_utf32_round_trip",
    "C04_from_utf16",
    "C04_replacement",
    "C04_replacement_utf8",
    "C04_to_utf16_refuted",
    "C04_to_utf16_supplementary_wrong",
    "C04_to_utf16_partial"
   ],
   "note": "UTF-8/UTF-32 and everything from UTF-16 proved, malformed parts are replaced by U+FFFD; to UTF-16 refuted for every supplementary code point, proved for the BMP."
  },
  {
   "property": "C05",
   "status": "proved",
   "theorems": [
    "C05_is_cp_space_exact",
    "C05_find_space",
    "C05_find_nonspace",
    "C05_search_unique",
    "C05_search_suffix",
    "C05_find_space_utf8",
    "C05_find_nonspace_utf8",
    "C05_find_nondigit"
   ],
   "note": ""
  },
  {
   "property": "C06",
   "status": "partial",
   "theorems": [
    "C06_value_partial",
    "C06_value_mod",
    "C06_specs_value",
    "C06_value_refuted"
   ],
   "note": "Refuted as stated for 64-bit types in the bases outside `exact` (unsigned decimal included): 30000000000000000000 is accepted and wraps. Proved for all types up to 32 bits and the `exact` 64-bit bases, for every run below 2^64, and modulo 2^64 in general. The 0x10 byte exclusion (no_dle) is explained at C11_dle_refuted."
  },
  {
   "property": "C07",
   "status": "partial",
   "theorems": [
    "C07_in_range_never_fails",
    "C07_overflow_reported_partial",
    "C07_detection_iff",
    "C07_overflow_refuted"
   ],
   "note": "In-range half proved in full; out-of-range half refuted for unsigned 64-bit decimal, and C07_detection_iff gives exactly the (type, base) pairs for which it holds."
  },
  {
   "property": "C08",
   "status": "partial",
   "theorems": [
    "C08_round_trip_partial",
    "C08_scan_int_round_trip_partial",
    "C08_print_numeral",
    "C08_zero_refuted"
   ],
   "note": "Proved except for the value 0 followed by text that completes a base prefix (\"0\" then \"x1\" in base 16), where it is refuted."
  },
  {
   "property": "C09",
   "status": "proved",
   "theorems": [
    "C09_block_test",
    "C09_block_value",
    "C09_fast_is_plain_loop",
    "C09_plain_loop"
   ],
   "note": ""
  },
  {
   "property": "C10",
   "status": "proved",
   "theorems": [
    "C10_exhaustive_valid",
    "C10_every_value",
    "C10_leading_zeros_refuted"
   ],
   "note": "Proved for the decimal representation of every value. Zero-padded numerals of 20 or more digits violate the internal precondition (C10_leading_zeros_refuted)."
  },
  {
   "property": "C11",
   "status": "partial",
   "theorems": [
    "C07_in_range_never_fails",
    "C07_overflow_reported_partial",
    "C11_no_digits",
    "C11_dangling_prefix",
    "C11_dle_refuted"
   ],
   "note": "Grammar proved for every source except texts whose first unit after the sign is the byte 0x10 on contiguous narrow sources, which is taken for the 0 of a prefix (refuted)."
  },
  {
   "property": "C12",
   "status": "proved",
   "theorems": [
    "C12_minus_unsigned",
    "C12_minus_u",
    "C12_lone_sign",
    "C12_empty",
    "C07_in_range_never_fails"
   ],
   "note": ""
  },
  {
   "property": "C13",
   "status": "partial",
   "theorems": [
    "C13_int_source_independent",
    "C13_int_specs_source_independent",
    "C13_first_field_partial",
    "C13_one_read_partial",
    "C13_spaced_partial",
    "C13_characters_partial",
    "C13_field_partial",
    "C13_one_character",
    "C13_code_point",
    "C13_comma_refuted",
    "C13_adjacent_refuted",
    "C13_leading_space_refuted",
    "C13_file_refuted",
    "C13_cut_space_refuted",
    "C13_bool_refuted",
    "C13_word_refuted",
    "C13_code_point_refuted"
   ],
   "note": "The two integer reading algorithms agree on every input. Whole format strings with {} fields for ints, words, bools, char and char32_t on ASCII sources agree for the first field, for files delivered in one read, for fields that follow white space in sources read character by character, and for fields that are all characters. In general they do not: a later field is read from the current segment alone, so a deque with the characters 12,34 scanned with {},{} gives 12 and 3, and a char32_t after another field can get half a code point. C13_code_point: a char32_t first field agrees for any bytes, from any fresh buffer. Floats, pointers and fields with specs are not covered."
  },
  {
   "property": "C14",
   "status": "proved",
   "theorems": [
    "C14_answers_right",
    "C14_runs",
    "C14_iterate",
    "C14_iterate_again",
    "C14_segment_nonempty"
   ],
   "note": "For forward-range, stdio and getc buffers, however the stream delivers its data, and for every sequence of iterator operations."
  },
  {
   "property": "C15",
   "status": "partial",
   "theorems": [
    "C15_partial",
    "C15_no_silent_loss",
    "C15_ranges",
    "C15_scan_partial",
    "C15_scan_success_partial",
    "C15_room_refuted",
    "C15_unread_refuted",
    "C15_getc_partial",
    "C15_getc_success_partial",
    "C15_getc_end_refuted"
   ],
   "note": "Proved when stdio accepts the characters to be given back, and that one is enough for whole scans of plain fields over ASCII text; when it does not the error is reported but characters are lost (refuted witnesses). Sources that are not streams have nothing to give back (C15_ranges)."
  },
  {
   "property": "C16",
   "status": "partial",
   "theorems": [
    "C16_partial",
    "C16_current_segment_refuted",
    "C16_end_refuted"
   ],
   "note": "Proved for positions before the current segment of the parent buffer and for buffers that hold only one segment so far; positions inside a later segment, and at its end, are refuted. Contiguous sources hand over the remaining view directly and need no buffer."
  },
  {
   "property": "C17",
   "status": "partial",
   "theorems": [
    "C17_run_time_total_partial",
    "C17_checker_total_partial",
    "C17_regex_refuted",
    "C17_many_args_refuted"
   ],
   "note": "Run-time and compile-time parsing are total for fewer than 64 arguments and no regex_matches arguments; refuted for those (an \"L\" type on regex_matches reaches undefined behaviour; 64 arguments trip an assertion). UTF-16 format strings are covered by the totality theorems."
  },
  {
   "property": "C18",
   "status": "partial",
   "theorems": [
    "C18_specs_partial",
    "C18_tokens_partial",
    "C18_sound_partial",
    "C18_complete_partial",
    "C18_scalars_partial",
    "C18_accepted_tokens_partial",
    "C18_accepted_ascii_partial",
    "C18_accepted_partial",
    "C18_accepted_sound_partial",
    "C18_accepted_complete_partial",
    "C18_only_partial",
    "C18_dot_refuted",
    "C18_brace_refuted",
    "C18_regex_refuted",
    "C18_fill_refuted",
    "C18_empty_specs_refuted",
    "C18_many_args_refuted"
   ],
   "note": "Every rendered replacement field and token list is parsed to its meaning, and only format-specs of the grammar are accepted; the exceptions are the refuted cases (regular expressions starting like an alignment, some fills, empty specs before an alignment character, \".\" without digits, 64 arguments or more). C18_accepted_*: every format string accepted at compile time, inside the grammar or not and with user types, consists of tokens and scans what they ask for (literals ASCII in narrow format strings; fewer than 64 arguments, no regex_matches; contiguous narrow or wide strings)."
  },
  {
   "property": "C19",
   "status": "partial",
   "theorems": [
    "C19_in_range_once",
    "C19_every_argument_partial",
    "C19_checked",
    "C19_bad_index_partial",
    "C19_mixed_refuted",
    "C19_skipped_refuted"
   ],
   "note": "Ids in range and never used twice: every format string. Every argument read: every format string accepted at compile time (user scanners included, provided they parse at run time what they parse at compile time), and format strings given by tokens. Refuted for run-time format strings: mixed numbering is accepted, and a field whose format-specs are rejected can be skipped silently."
  },
  {
   "property": "C20",
   "status": "partial",
   "theorems": [
    "C20_sound_partial",
    "C20_complete_partial",
    "C20_error_partial",
    "C20_eof_refuted",
    "C20_nonascii_refuted"
   ],
   "note": "ASCII literals on narrow sources, all on wide ones. Refuted: white space at the end of the source does not match, literals outside ASCII never match on narrow sources."
  },
  {
   "property": "C21",
   "status": "partial",
   "theorems": [
    "C21_suffix",
    "C21_rest_is_suffix",
    "C21_two_steps_partial",
    "C21_two_steps",
    "C21_split_refuted"
   ],
   "note": "Suffix part in full. Scanning in two steps: numbered and unnumbered fields, format strings of the grammar, strings (for sources in pieces see C13). The converse is refuted: white space at the end of the source."
  },
  {
   "property": "C22",
   "status": "partial",
   "theorems": [
    "C22_same_partial",
    "C22_locale_refuted"
   ],
   "note": "Refuted when a locale is passed: the shortcut drops it."
  },
  {
   "property": "C23",
   "status": "partial",
   "theorems": [
    "C23_field_partial",
    "C23_default_partial",
    "C23_plain_partial",
    "C23_word",
    "C23_nonempty_partial",
    "C23_any_bytes",
    "C23_right_refuted",
    "C23_left_refuted"
   ],
   "note": "Every well-formed source whose segments end between code points, all format-specs; default format on every byte string too. Refuted with alignment: an empty word is possible, and no specifier differs from s."
  },
  {
   "property": "C24",
   "status": "partial",
   "theorems": [
    "C24_partial",
    "C24_crossing_refuted"
   ],
   "note": "From the text of the specifier to the value. Refuted for ranges from ASCII to beyond ASCII; proved for all other sets."
  },
  {
   "property": "C25",
   "status": "partial",
   "theorems": [
    "C25_partial",
    "C25_fewer_refuted"
   ],
   "note": "Refuted as stated: fewer characters are accepted without a width. Proved exactly what is read, and that a width makes it an error."
  },
  {
   "property": "C26",
   "status": "partial",
   "theorems": [
    "C26_bound_partial",
    "C26_consumed_partial",
    "C26_types_partial",
    "C26_types_consumed_partial",
    "C26_malformed_refuted",
    "C27_integers",
    "C27_floats",
    "C27_pointers",
    "C27_values"
   ],
   "note": "Every well-formed source whose segments end between code points and every reader that stops between code points; proved to be such: the readers of integers, bool, floats, pointers, wide characters, code points and strings, also with L in a locale with ASCII separators (C27_values); C26_types_partial and C26_types_consumed_partial state the property for an argument of any of these types. Not: char, which is a code unit, and regular expressions, which are a parameter. Refuted for ill-formed text."
  },
  {
   "property": "C27",
   "status": "partial",
   "theorems": [
    "C27_field_partial",
    "C27_types_partial",
    "C27_values",
    "C27_integers",
    "C27_floats",
    "C27_pointers"
   ],
   "note": "Refinement to a code point level specification of fields, for well-formed sources whose segments end between code points, and arguments of every scalar type but char, which may split a code point (C27_types_partial); C27_field_partial for any reader that stops between code points. Not: regular expressions, whose engine is a parameter, UTF-16, ill-formed text."
  },
  {
   "property": "C28",
   "status": "proved",
   "theorems": [
    "C28_default",
    "C28_plain",
    "C28_every_field",
    "C28_spellings",
    "C28_field_partial",
    "C28_default_partial"
   ],
   "note": "Every source, ill-formed or in segments: fields without width, precision and alignment exactly; with them every success contains one of the spellings, and exactly which texts are accepted for well-formed sources whose segments end between code points (C28_field_partial, which includes localised words of which neither begins with the other)."
  },
  {
   "property": "C29",
   "status": "partial",
   "theorems": [
    "C29_char",
    "C29_code_point_partial",
    "C29_code_point_field_partial",
    "C29_any_bytes",
    "C29_truncated_refuted",
    "C29_broken_refuted",
    "C29_ill_formed_accepted_refuted",
    "C29_end_refuted"
   ],
   "note": "char proved; code points proved on well-formed text. Refuted: truncated and broken sequences violate the precondition of the decoder instead of being reported, overlong ones and surrogates are accepted; C29_any_bytes gives the behaviour on every source of bytes."
  },
  {
   "property": "C30",
   "status": "partial",
   "theorems": [
    "C30_refuted",
    "C30_partial"
   ],
   "note": "Refuted: the scanned number is dropped. Proved: what is consumed and which errors are reported."
  },
  {
   "property": "C31",
   "status": "proved",
   "theorems": [
    "C31_as_hex",
    "C31_default",
    "C31_value",
    "C31_accepted",
    "C31_default_partial"
   ],
   "note": "Equality with hexadecimal scanning for every source and format-spec, and without one. The grammar spelled out excludes texts starting with the byte 0x10 (see C11)."
  },
  {
   "property": "C32",
   "status": "partial",
   "theorems": [
    "C32_partial",
    "C32_consumed",
    "C32_errors",
    "C32_defined",
    "C32_unique",
    "C32_accepts",
    "C32_default",
    "C32_sources",
    "C32_refuted",
    "C32_segmented_refuted"
   ],
   "note": "Not localized. Exact result for every text and format: the longest prefix in the grammar is converted and consumed if the text is readable, otherwise the error is invalid_scanned_value; range errors carry the sign. fast_float and strtod are parameters with a contract (converts), met by exact rational arithmetic (FloatInstance). Refuted in general: numbers starting with the point, hexadecimal digits a-f in front without prefix, an unfinished nan payload; a string and a source in pieces differ on 0x without a digit behind it."
  },
  {
   "property": "C33",
   "status": "proved",
   "theorems": [
    "C33_args"
   ],
   "note": ""
  },
  {
   "property": "C34",
   "status": "partial",
   "theorems": [
    "C34_partial",
    "C34_ends",
    "C34_ascii",
    "C34_literal_refuted",
    "C34_brace_refuted",
    "C34_end_refuted",
    "C34_week_refuted",
    "C34_wide_space_refuted"
   ],
   "note": "Proved: termination for every format; memory safety and exact grammar for ASCII formats; every format whose literals are single code units makes exactly the calls it stands for. Refuted: a literal of several units swallows the next character (a conversion, or the closing brace) and reads behind the end; %OW; wide non-ASCII white space."
  },
  {
   "property": "C35",
   "status": "partial",
   "theorems": [
    "C35_ranges_partial",
    "C35_accepts_partial",
    "C35_weekday_refuted",
    "C35_weekday_exact",
    "C35_yday_refuted",
    "C35_fraction_refuted"
   ],
   "note": "Ranges proved for every format, source and locale. Every in-range number is accepted except the refuted cases: %u stores the wrong day, datetime_components accepts only the first seven days of the year, and a fraction of a second that rounds to one fails an assertion (C35_fraction_refuted: with any correctly rounding conversion). C35_weekday_exact gives what %u stores for every digit. %Y beyond 9999 and signed years are not in the acceptance theorem."
  },
  {
   "property": "C36",
   "status": "partial",
   "theorems": [
    "C36_hours",
    "C36_years_partial",
    "C36_components_refuted"
   ],
   "note": "Hours for all destinations; years for std::tm. For datetime_components the year is refuted."
  },
  {
   "property": "C37",
   "status": "partial",
   "theorems": [
    "C37_partial",
    "C37_component_partial",
    "C37_days_refuted",
    "C37_component_refuted",
    "C37_check_refuted",
    "C37_datetime_refuted"
   ],
   "note": "Formats of single-unit literals. Refuted: all three of wday, mday and yday together are accepted; a component that is not set is read; some conflicts are only found while scanning; %c never succeeds."
  },
  {
   "property": "C38",
   "status": "partial",
   "theorems": [
    "C38_partial",
    "C38_elements_partial",
    "C38_printed",
    "C38_containers_partial",
    "C38_layout_partial",
    "C38_integers_read_back",
    "C38_total",
    "C38_syntax",
    "C38_long_separator_refuted",
    "C38_no_brackets_refuted",
    "C38_strings_refuted",
    "C38_chars_refuted",
    "C38_max_size_refuted"
   ],
   "note": "Round trip for every nest of vectors, sets, maps and tuples of integers, every white space (ASCII only if the source is split into segments) and suffix; any layout and leaf scanner with the stated read-back property; any layout with floating-point numbers, bools and pointers from strings, and the text std::format prints. A set or map keeps the first element of each key, in order of the keys; a multiset keeps all of them. Safety for every nest of built-in types; exactly the documented syntax is accepted from strings. Refuted: punctuation of several units reads past the end; a range without brackets reads nothing; words swallow separators; characters do not skip white space; max_size() of the range is ignored. Unordered containers, nested containers with repeated keys, and the specs left by a failed parse are not modelled."
  },
  {
   "property": "C39",
   "status": "partial",
   "theorems": [
    "C39_partial",
    "C39_get_peek",
    "C39_failures",
    "C39_peek_unget_refuted",
    "C39_peek_unget_get_refuted",
    "C39_second_unget_refuted",
    "C39_putback_refuted",
    "C39_unget_at_start_refuted"
   ],
   "note": "All sequences of get and peek, and one unget not directly after a successful peek. Refuted: unget after peek, a second unget, putback, unget at the start."
  },
  {
   "property": "C40",
   "status": "partial",
   "theorems": [
    "C40_partial",
    "C40_accepted_partial",
    "C40_masked_refuted",
    "C40_literal_refuted"
   ],
   "note": "Refuted as stated. Proved: for every format string accepted at compile time (literals ASCII in narrow format strings), invalid_format_string at run time comes only in place of the error of a literal or of a failing field."
  },
  {
   "property": "C41",
   "status": "partial",
   "theorems": [
    "C41_value_partial",
    "C41_grouping_refuted",
    "C41_nul_refuted"
   ],
   "note": "Value part proved; grouping is never validated (refuted), and NUL is accepted as a separator in locales without grouping."
  },
  {
   "property": "C42",
   "status": "proved",
   "theorems": [
    "C42_byteswap",
    "C42_has_zero_byte",
    "C42_has_zero_byte_first",
    "C42_has_byte_greater",
    "C42_has_byte_greater_first",
    "C42_first_nonmatching_byte",
    "C42_first_matching_byte",
    "C42_log2",
    "C42_log2_pow2",
    "C42_words_are_bytes"
   ],
   "note": "has_byte_greater is specified for n <= 127, its intended domain; has_byte_between is not modelled (unused)."
  },
  {
   "property": "C43",
   "status": "partial",
   "theorems": [
    "C43_partial",
    "C43_wide_refuted",
    "C43_wide"
   ],
   "note": "Narrow format strings: every code point; wide ones: up to U+00FF, refuted beyond; C43_wide gives the code point skipped instead, for every fill."
  },
  {
   "property": "C44",
   "status": "partial",
   "theorems": [
    "C44_first_error_partial",
    "C44_accepted_partial",
    "C44_single_partial",
    "C44_masked_refuted"
   ],
   "note": "Refuted as stated: with arguments left unread the error becomes invalid_format_string. Otherwise the error is that of the first token that fails, for format strings given by tokens and for all accepted at compile time."
  },
  {
   "property": "C45",
   "status": "proved",
   "theorems": [
    "C45_default",
    "C45_specs"
   ],
   "note": ""
  },
  {
   "property": "C46",
   "status": "partial",
   "theorems": [
    "C46_plain_partial",
    "C46_width_refuted",
    "C46_precision_refuted"
   ],
   "note": "Refuted: it is counted. Proved without width and precision."
  },
  {
   "property": "C47",
   "status": "proved",
   "theorems": [
    "C47",
    "C47_default"
   ],
   "note": ""
  },
  {
   "property": "C48",
   "status": "partial",
   "theorems": [
    "C48_partial",
    "C48_precision",
    "C48_backslash_refuted"
   ],
   "note": "Engine is a parameter. Refuted: a pattern ending in an escaped backslash cannot be given; patterns with an alignment character in second position are excluded (C18_regex_refuted)."
  },
  {
   "property": "C49",
   "status": "partial",
   "theorems": [
    "C49_floats_partial",
    "C49_partial",
    "C49_refuted",
    "C17_many_args_refuted",
    "C17_regex_refuted"
   ],
   "note": "Integers, bool, char, wchar_t from wide sources, pointers, strings, floating-point numbers (with any separators, given the contract of the conversion routines); fewer than 64 arguments. Refuted for code points on truncated text."
  },
  {
   "property": "C50",
   "status": "partial",
   "theorems": [
    "C50_partial",
    "C50_text_partial",
    "C50_localized_refuted"
   ],
   "note": "Without %u (C35_weekday_exact) and literals of several code units; datetime_components without centuries, short years and days of the year above 7. %Z, %.S and the L flag are in C50_text_partial, the flag for specifiers that look the same in every locale. Refuted for the others: with the L flag a name is looked for at the beginning of the input."
  },
  {
   "property": "C51",
   "status": "partial",
   "theorems": [
    "C51_partial",
    "C51_refuses",
    "C51_plain",
    "C51_point_lost",
    "C51_refuted",
    "C51_defined"
   ],
   "note": "Locales whose separators are printable and not letters, digits or signs. Holds if the thousands separator is not the point: any placement of separators in the whole part is accepted. Refuted otherwise: with a comma as decimal point and a point as thousands separator the decimal point is dropped, 1.234,5 is read as 12345 (C51_point_lost in general). Texts of separators with no digit are refused."
  },
  {
   "property": "C52",
   "status": "partial",
   "theorems": [
    "C52_std_partial",
    "C52_boost_partial",
    "C52_re2_partial",
    "C52_strings",
    "C52_string_partial",
    "C52_segmented",
    "C52_space_refuted",
    "C52_empty_refuted",
    "C52_boost_names_refuted",
    "C52_boost_dot_refuted",
    "C52_re2_lines_refuted",
    "C52_re2_group_refuted",
    "C52_no_pattern_refuted"
   ],
   "note": "Fields of a pattern and flags alone, on contiguous sources; on all others an error (C52_segmented). Holds for std::regex apart from white space; for Boost if named captures can be told apart by their text and the newline question does not matter or s is given; for RE2 if ends of lines do not matter and named captures take part. Refuted: leading white space is skipped; an empty match at the end of the source is end_of_input; Boost gives an unnamed capture the name of one with the same text and lets . match newlines always; RE2 inverts m and dereferences an empty optional for a named capture without a match; a run-time format-spec without a pattern violates a precondition. The engines are parameters."
  },
  {
   "property": "C53",
   "status": "partial",
   "theorems": [
    "C53_components_partial",
    "C53_fractions_partial",
    "C53_partial",
    "C53_clock",
    "C53_date_refuted",
    "C53_missing_refuted",
    "C53_overflow_refuted",
    "C53_failure_refuted",
    "C53_zone_refuted",
    "C53_rounding_refuted",
    "C53_fraction_refuted"
   ],
   "note": "mktime is a parameter that converts dates that exist in a zone of fixed offset (a UTC one is shown to exist). Exact for every format, date and duration whose ticks fit. Refuted: dates that do not exist and missing days become other dates, overflow is undefined behaviour or wraps, failure of mktime is taken for a time, time zones are refused, instants before 1970 are rounded up, fractions lose a nanosecond."
  },
  {
   "property": "C54",
   "status": "partial",
   "theorems": [
    "C54_partial",
    "C54_short_year_refuted"
   ],
   "note": "As C50; refuted for years of two digits."
  },
  {
   "property": "C55",
   "status": "partial",
   "theorems": [
    "C55_partial",
    "C55_getc_partial",
    "C55_getc_refuted",
    "C55_together_refuted"
   ],
   "note": "ASCII files; fields without options. Exact for files with a get area however they are divided; for files read by fgetc without words. Refuted: a word and one more character at the end of a file read by fgetc violates a precondition; several fields in one call can be cut at the edge of a buffer."
  },
  {
   "property": "C56",
   "status": "partial",
   "theorems": [
    "C56_words_partial",
    "C56_unique",
    "C56_ints_partial",
    "C56_all_ints_partial",
    "C56_ends",
    "C56_array",
    "C56_array_refuted",
    "C56_forward_partial"
   ],
   "note": "Words and integers of sources whose segments do not end within a code point, any encoding but UTF-16 for integers; ranges that are not contiguous: ASCII. Refuted for arrays that are not string literals: the last character is dropped, characters behind the null are scanned."
  },
  {
   "property": "C57",
   "status": "partial",
   "theorems": [
    "C57_given_partial",
    "C57_as_global_partial",
    "C57_opt_in",
    "C57_no_grouping",
    "C57_elements_refuted",
    "C57_elements_global",
    "C57_simple_refuted"
   ],
   "note": "Proved for scalars, floats included, and for user scanners with format strings other than \"{}\"; that fields without L do not depend on any locale is proved for scalars and ranges. Refuted: elements of ranges are read in the global locale; a user scanner is not given the locale with the format string \"{}\"."
  },
  {
   "property": "C58",
   "status": "proved",
   "theorems": [
    "C58_format",
    "C58_value",
    "C58_unsigned_refuted",
    "C58_arbitrary_base_refuted"
   ],
   "note": "Proved for every string, integer type and all the format strings listed, and for {:u} into unsigned types. Refuted for {:u} into signed types (a minus sign is rejected) and for bases only scan_int can name ({:r36} is rejected)."
  },
  {
   "property": "C59",
   "status": "partial",
   "theorems": [
    "C59_discard_partial",
    "C59_checked_partial",
    "C59_ranges",
    "C59_align_refuted",
    "C59_literal_refuted",
    "C59_locale_refuted",
    "C59_width_refuted",
    "C59_view_refuted",
    "C59_mixed_refuted"
   ],
   "note": "Proved for all sources, format strings accepted for the plain types, and lists of scalars with any of them discarded, if there is no locale or no field with L, and no width without precision on strings; the error may be invalid_format_string instead of invalid_literal. Accepted format strings are the same unless \"{}\" is followed by an alignment sign. Refuted in these cases, and for discarded string_view from a source that is not contiguous and for mixed numbering at run time. discard of ranges, tuples, dates, times and user types, in lists with scalars: exactly as if kept, with any format string, and at compile time (C59_ranges, for scanners that do not look at the locale of the call)."
  },
  {
   "property": "C60",
   "status": "partial",
   "theorems": [
    "C60_partial",
    "C60_any_partial",
    "C60_refuted",
    "C60_literal_refuted",
    "C60_fill_refuted",
    "C60_wchar_refuted"
   ],
   "note": "Proved for strings of Unicode scalar values without U+0010 and ASCII format strings, valid or not: integers, bool, char32_t, pointers, std::string/std::wstring, floating-point numbers (without L in a locale with other separators), ranges and tuples of these with ASCII punctuation (C60_any_partial), user types that themselves agree; locale names and separators ASCII. Refuted: byte 0x10 before a base prefix, non-ASCII literals, fills above 255, wchar_t in an empty field. Not covered: char, string views."
  },
  {
   "property": "C61",
   "status": "partial",
   "theorems": [
    "C61_partial",
    "C61_append_partial",
    "C61_narrow_partial",
    "C61_any_partial",
    "C61_any_narrow_partial",
    "C61_refuted",
    "C61_float_refuted"
   ],
   "note": "Proved for wide strings of Unicode scalar values, and for narrow strings holding their UTF-8 encoding (without U+0010), with ASCII format strings, valid or not: integers, bool, characters, pointers, strings, string views (wide), floating-point numbers (not with L in a locale with other separators), ranges and tuples of these with a closing bracket and punctuation of at most one character each (C61_any_partial), user types that themselves are like that. Format strings with a slash only if the engine for regular expressions has the property. Not covered: non-ASCII format strings, text that is not valid Unicode. The refutations show that text following without white space does matter, even behind an unchanged character."
  },
  {
   "property": "C62",
   "status": "partial",
   "theorems": [
    "C62_partial",
    "C62_any_partial",
    "C62_refuted"
   ],
   "note": "Proved under the same conditions as C61 for format strings without white space, C62_any_partial with ranges and tuples (narrow strings: C61_narrow_partial and C61_any_narrow_partial with nothing left). Refuted in general: white space in the format string matches nothing before other text, but fails at the end of the text."
  },
  {
   "property": "C63",
   "status": "partial",
   "theorems": [
    "C63_partial",
    "C63_errors_partial",
    "C63_copy_refuted",
    "C63_swallowed_refuted",
    "C63_emplace_refuted",
    "C63_emplace_error_refuted",
    "C63_emplace_lost_refuted",
    "C63_convert_lost_refuted",
    "C63_convert_refuted",
    "C63_default_refuted",
    "C63_uncompiled_refuted",
    "C63_throwing_error_refuted"
   ],
   "note": "Proved for errors whose copies do not throw (as scan_error) and all programs that do not emplace or assign values whose construction may throw, nor convert to a type with a destructor; the program may still be ended by a copy or default construction that throws. Each of the excluded cases is refuted."
  },
  {
   "property": "C64",
   "status": "proved",
   "theorems": [
    "C64_once",
    "C64_errc",
    "C64_equal"
   ],
   "note": "For lvalue results; what is left in an rvalue result moved from is not modelled."
  },
  {
   "property": "C65",
   "status": "proved",
   "theorems": [
    "C65_success",
    "C65_failure",
    "C65_same",
    "C65_checked",
    "C65_checked_same"
   ],
   "note": "Failures: for fewer than 64 arguments (see C17). Integer types of LP64."
  },
  {
   "property": "C66",
   "status": "partial",
   "theorems": [
    "C66_partial",
    "C66_natural_refuted",
    "C66_space_refuted",
    "C66_letter_refuted",
    "C66_fill_refuted",
    "C66_char_refuted"
   ],
   "note": "Scalars, and ranges and tuples of numbers, bools and pointers. Proved for texts in which values, padding and literal text can be told apart (clear), from strings. Refuted for the rest: words padded without an alignment, padding behind white space in the format string, words padded without s, values beginning with the fill, and char printed with c. Format-specs of ranges are missing (they have other meanings in the two libraries)."
  },
  {
   "property": "C67",
   "status": "partial",
   "theorems": [
    "C67_partial",
    "C67_error_partial",
    "C67_complete_partial",
    "C67_sound_partial",
    "C67_run_partial",
    "C67_upper_octal_refuted",
    "C67_character_refuted",
    "C67_code_point_refuted",
    "C67_base_refuted",
    "C67_localized_refuted",
    "C67_binary_refuted"
   ],
   "note": "Compile time: an exact characterisation for format strings of the grammar that the parser accepts, narrow or wide. The differences from the documentation are the refutations: O, c for integers and characters, r, L for other types, Lb for integers; integer letters for code points are accepted but fail at run time. Run time: scalars from strings; the converse (what is listed can be scanned) is C66 and the properties of the readers."
  },
  {
   "property": "C68",
   "status": "partial",
   "theorems": [
    "C68_partial",
    "C68_checked_partial",
    "C68_in_order_partial",
    "C68_any_partial",
    "C68_mixed_refuted"
   ],
   "note": "Proved from strings and format strings of the grammar, for scalars and (C68_any_partial, without format-spec) arguments of any type including ranges and user types. At run time the two kinds can be mixed (refuted)."
  },
  {
   "property": "C69",
   "status": "partial",
   "theorems": [
    "C69_partial",
    "C69_start_partial",
    "C69_narrow_partial",
    "C69_format",
    "C69_format_narrow",
    "C69_format_partial",
    "C69_character_refuted",
    "C69_width_refuted"
   ],
   "note": "C69_format: any wide source, however it is stored, any format string, valid or not, in which no colon is followed by a width, precision, alignment, fill, set or pattern; scalars other than characters, ranges and tuples of them, user types that do the same: one text fails exactly if the other does, and the values are the same. C69_format_narrow: the same of narrow strings with an ASCII format string. White space in the format string for every source that is a string (C69_format_partial, scalars). Characters and widths see the white space (refuted)."
  },
  {
   "property": "C70",
   "status": "partial",
   "theorems": [
    "exact_blind",
    "C70_default",
    "C70_specs",
    "C70_ranges",
    "C70_format",
    "C70_partial",
    "C70_args_partial",
    "C70_letters_partial",
    "C70_bool_refuted",
    "C70_capital_refuted"
   ],
   "note": "Proved in full for sources (C70_format): any number of arguments (numbers, ranges and tuples of them, user types that are blind to case), any source stored in any way, any format string, valid or not, whose literal text and fills have no letters, errors included. Locales whose separators are no letters. Presentation types (C70_letters_partial): equal successes, for format strings of the grammar. The conversion routines of the C and C++ libraries are assumed not to tell cases apart (case_blind), which the model conversion meets (exact_blind). Not all type letters have a capital form, and boolean words are read with regard to case (refuted)."
  },
  {
   "property": "C71",
   "status": "partial",
   "theorems": [
    "C71_partial",
    "C71_checked_partial",
    "C71_octal_refuted",
    "C71_character_refuted",
    "C71_word_refuted",
    "C71_end_refuted"
   ],
   "note": "Proved for scalars, strings and format strings of the grammar, all locales and sources: the same successful scans (C71_partial), and acceptance at compile time for format strings without c (C71_checked_partial). Excluded by differs, each refuted: c for characters, s with an alignment to the left or centre; O is documented but refused. Failures can differ: at the end of the source a char32_t with an empty format-spec reads beyond it (C71_end_refuted)."
  },
  {
   "property": "C72",
   "status": "partial",
   "theorems": [
    "C72_flat_partial",
    "C72_nested_partial",
    "C72_space_refuted"
   ],
   "note": "Both directions, for strings (and wide sources stored in any way) and format strings of the grammar with unnumbered fields; the parts and the other arguments are of any type, so objects may be nested. The direction from the parts to the object needs that neither the nested format string nor what follows the field begins with white space: at the end of the source such white space fails (refuted). Numbered fields, format-specs of the object itself and the error codes are not covered."
  },
  {
   "property": "C73",
   "status": "partial",
   "theorems": [
    "C73_partial",
    "C73_fields_partial",
    "C73_century_refuted"
   ],
   "note": "C73_partial: every format, input, locale and target. For datetime_components the initial year must not be within 40000 of the ends of int, where adding a century overflows (refuted), and the locale must not read years of more than four digits. C73_fields_partial names the fields by C74_partial, under its conditions."
  },
  {
   "property": "C74",
   "status": "partial",
   "theorems": [
    "C74_partial"
   ],
   "note": "Every target, input and locale, for formats of the grammar without literals of several code units and without %OW; not UTF-16."
  },
  {
   "property": "C75",
   "status": "partial",
   "theorems": [
    "C75_partial",
    "C75_checked_partial",
    "C75_user",
    "C75_user_checked",
    "C75_range_scanner",
    "C75_locale_refuted",
    "C75_width_refuted",
    "C75_align_refuted"
   ],
   "note": "Scanners derived from those of ranges, tuples and user types: proved in full, for any format string, valid or not, any source and locale, errors included, and for compile-time checking (C75_user, C75_user_checked); the scanners are assumed not to look at the locale of the call. Derived from built-in types (C75_partial): format strings accepted for the base types, without L in a call with a locale and without a lone width on strings (both refuted); invalid_literal may be reported as invalid_format_string (C59_literal_refuted). Compile-time acceptance: C75_checked_partial, lists of built-in and derived types; \"{}<\" is refused (refuted)."
  },
  {
   "property": "C76",
   "status": "partial",
   "theorems": [
    "C76_partial",
    "C76_scalars",
    "C76_char_refuted"
   ],
   "note": "Any format string, valid or not, any source and locale, errors included. char and wchar_t must be 0 before: with an integer presentation type they keep their initial value (refuted). Ordered containers and sequences; unordered containers, regex_matches and user types are not covered (dates: C73)."
  },
  {
   "property": "C77",
   "status": "partial",
   "theorems": [
    "C77_partial",
    "C77_then_partial",
    "C77_place_refuted",
    "C77_ampm_refuted",
    "C77_short_year_refuted"
   ],
   "note": "C77_partial: each such specifier given alone, in any locale, exactly (success, failure, position, fields); C77_then_partial: followed by specifiers that look the same in every locale (for all but %c; text with fractions or zone names is not in the statement). Assumed: the year and month number of the facet fit in int. Refuted: a localized specifier after another one reads from the beginning of the text; %p ignores the locale; %Oy is read as %Ey. Not covered: %EC, %Oy in what they store, two localized specifiers in one format."
  },
  {
   "property": "C78",
   "status": "partial",
   "theorems": [
    "C78_partial",
    "C78_spec_partial",
    "C78_blank",
    "C78_filled",
    "C78_format_partial",
    "C78_format_ascii",
    "C78_precision_refuted",
    "C78_aligned_refuted",
    "C78_other_refuted"
   ],
   "note": "C78_partial (\"{}\"): exact, for every scalar type. C78_blank, C78_filled: exact for the format-specs named; C78_spec_partial: one direction for every format-spec; C78_format_partial, C78_format_ascii: one direction for every format string and list of scalars. The text is valid and not split within characters (ASCII text: in any pieces). Assumed: the regular expression engine has no such error. Refuted: a precision can end the field before the value (end_of_input though input is left); an aligned bool or string, a set of characters, and literal characters or white space before the field give another result at the end of the input. Not covered: ranges, dates, regex_matches, user types."
  },
  {
   "property": "C79",
   "status": "partial",
   "theorems": [
    "C79_ranges_partial",
    "C79_vector_partial",
    "C79_call_partial",
    "C79_calls_partial",
    "C79_ends_partial",
    "C79_words_partial",
    "C79_any_word",
    "C79_word_spec",
    "C79_set",
    "C79_string_refuted",
    "C79_regex_refuted",
    "C79_empty_name_refuted",
    "C79_brackets_refuted"
   ],
   "note": "Integers, floating-point numbers, booleans, characters and pointers, and ranges and tuples of them of any depth and punctuation (C79_ranges_partial; there brackets and separators count too; C79_call_partial, C79_calls_partial and C79_ends_partial have the ranges and tuples in brackets): every format string, every source of code units of char or 32-bit wchar_t (not necessarily valid text, in any pieces). Assumed: std::from_chars and strtod convert something only if they use up something (converts), the names of true and false in the locale are not empty. Words with \"{}\", or a format-spec without alignment and precision: any contiguous or wide source (C79_any_word, C79_word_spec), in pieces: valid text not split within characters (loops of words: C56_words_partial). Strings read with a set of characters: any format-spec with one, any source (C79_set). Not covered: other strings, dates, user types. Refuted for aligned strings, regular expressions that match nothing, locales with an empty name of false, and ranges whose scanner has been given empty brackets: they read a value and stay where they are."
  }
 ]
}