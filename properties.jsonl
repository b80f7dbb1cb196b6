{"id": "C01", "title": "UTF-8 decoding of well-formed text is exact", "statement": "For every Unicode scalar value cp and every following text, decoding the next code point of utf8(cp) followed by that text yields exactly cp and stops exactly after the bytes of cp; hence decoding a whole well-formed UTF-8 string yields its code points in order, nothing lost, merged or invented.", "quantifier": "every scalar value, every list of scalar values, every suffix", "why_tests_cant": "There are 1.1 million scalar values and unboundedly many strings; unit tests check a few characters per length class.", "anchors": ["include/scn/scan.h: detail::decode_utf8_code_point_exhaustive, utf8_code_point_length_by_starting_code_unit", "src/scn/impl.h: impl::get_next_code_point, for_each_code_point"]}
{"id": "C02", "title": "Encoding errors in the source are detected", "statement": "Text accepted as valid UTF-8 (so that it can be returned in a string or as a code point) is exactly the well-formed UTF-8 of the Unicode standard: overlong forms, encoded surrogates, values above U+10FFFF, stray continuation bytes and truncated sequences are all rejected.", "quantifier": "every byte string", "why_tests_cant": "The set of ill-formed byte strings is infinite and its interesting members (overlongs, surrogates, truncation at the end of the source) are combinatorial.", "anchors": ["src/scn/impl.h: impl::validate_unicode", "include/scn/scan.h: detail::decode_utf8_code_point_exhaustive"]}
{"id": "C03", "title": "Code-point iteration always advances and partitions the input", "statement": "On any byte string, valid or not, stepping code point by code point consumes at least one and never more units than remain, terminates, and the pieces concatenate back to the input.", "quantifier": "every narrow, UTF-16 or UTF-32 unit string", "why_tests_cant": "Non-termination or out-of-bounds on malformed input only shows up on adversarial inputs.", "anchors": ["src/scn/impl.h: impl::get_next_code_point, get_start_for_next_code_point, for_each_code_point"]}
{"id": "C04", "title": "Transcoding between narrow and wide strings is lossless", "statement": "Scanning a narrow string into a wide string (or the reverse) and transcoding back gives the original text, for UTF-8 <-> UTF-32 and for UTF-8/UTF-32 <-> UTF-16. Each malformed part of a text is replaced by U+FFFD.", "quantifier": "every list of Unicode scalar values", "why_tests_cant": "Only a quantified statement covers every code point and every mixture of lengths.", "anchors": ["src/scn/impl.h: transcode_to_string, transcode_valid_to_string, transcode_to_string_impl_to32, _32to8, _32to16"]}
{"id": "C05", "title": "Whitespace search on contiguous narrow input is exact", "statement": "Finding the first whitespace (or first non-whitespace) position in a contiguous narrow source returns the first position at which a code point with Pattern_White_Space starts (or does not), exactly as scanning code point by code point would, regardless of the 8-byte block fast path, and never reads outside the source.", "quantifier": "every byte string, including malformed ones, of every length and alignment", "why_tests_cant": "The block path triggers depending on length and on the position of non-ASCII bytes; the input space is infinite.", "anchors": ["src/scn/impl.cpp: find_classic_impl, find_classic_space_narrow_fast, find_classic_nonspace_narrow_fast, has_nonascii_char_64"]}
{"id": "C06", "title": "Integer parsing returns the mathematical value", "statement": "If scanning an integer of a given type in a given base succeeds, the stored value equals the mathematical value of the sign and of the maximal run of base digits read, and the run read is maximal (the first unread unit is not a digit of that base).", "quantifier": "every source, every base 2..36, every built-in integer type of 8 to 64 bits, signed and unsigned", "why_tests_cant": "The value space is 2^64 and digit runs are unbounded; overflow in the accumulator can only be excluded for all inputs by proof.", "anchors": ["src/scn/impl.cpp: parse_integer_value, parse_decimal_integer_fast, parse_regular_integer", "include/scn/scan.h: scan_int"]}
{"id": "C07", "title": "Out-of-range integers are always reported, in-range integers never", "statement": "Scanning a digit run whose mathematical value does not fit the destination type fails with value_positive_overflow / value_negative_overflow, and scanning a run whose value fits (however many leading zeros it has) never fails with an overflow error.", "quantifier": "every digit run, base and integer type", "why_tests_cant": "Overflow detection is heuristic (digit counts and a table of thresholds); only a proof shows no wrapped value slips through.", "anchors": ["src/scn/impl.cpp: check_integer_overflow, store_result, maxdigits_u64_table, min_safe_u64_table"]}
{"id": "C08", "title": "Integer print/scan round trip", "statement": "For every integer value of the type, writing it in base b (with lower or upper case digits, optional '+' for non-negative values, optional leading whitespace) followed by any text that does not continue the digit run, and scanning it in base b, returns the same value and leaves exactly that text unread.", "quantifier": "every value of each integer type, every base 2..36, every suffix", "why_tests_cant": "Round trip over the entire value range of 64-bit types in 35 bases cannot be enumerated.", "anchors": ["src/scn/impl.cpp: scan_int_impl, parse_integer_value", "src/scn/impl.h: reader_impl_for_int"]}
{"id": "C09", "title": "Eight-digits-at-a-time parsing is equivalent to digit-by-digit parsing", "statement": "The block test recognises exactly the blocks of eight ASCII decimal digits, the block conversion yields their decimal value, and therefore decimal parsing gives the same accumulator, digit count and end position as a plain digit loop on any input.", "quantifier": "every 8-byte word and every byte string", "why_tests_cant": "2^64 words; the bit tricks are not decomposable per byte (borrows and carries cross bytes).", "anchors": ["src/scn/impl.cpp: is_word_made_of_eight_decimal_digits_fast, parse_eight_decimal_digits_unrolled_fast, loop_parse_if_eight_decimal_digits, parse_decimal_integer_fast_impl"]}
{"id": "C10", "title": "scan_int_exhaustive_valid is correct on every input meeting its documented precondition", "statement": "For every in-range value of the type, scanning its decimal representation (optional leading '-' for signed types) with the unchecked fast function returns exactly that value, with no undefined behaviour inside the function.", "quantifier": "every value of each integer type", "why_tests_cant": "Covers the entire 64-bit range including the minimum value, whose negation is a classic undefined-behaviour trap.", "anchors": ["src/scn/impl.cpp: parse_integer_value_exhaustive_valid", "include/scn/scan.h: scan_int_exhaustive_valid"]}
{"id": "C11", "title": "Base prefixes follow the documented grammar", "statement": "With an explicit base the matching prefix (0x, 0b, 0o or 0) is optional; with base detection the prefix alone selects the base and the default is decimal; a prefix that is not followed by a digit of its base is read as the number 0, leaving the rest unread; no other base accepts a prefix.", "quantifier": "every source and every requested base", "why_tests_cant": "The interaction of sign, prefix, missing digits and end of input yields many corner cases per base.", "anchors": ["src/scn/impl.h: parse_integer_prefix, parse_integer_bin_base_prefix, parse_integer_hex_base_prefix, parse_integer_oct_base_prefix, reader_impl_for_int::read_default_with_base"]}
{"id": "C12", "title": "Signs are handled as documented", "statement": "'+' is accepted for every numeric type; '-' is rejected for unsigned types (and for the 'u' specifier) and otherwise negates; a lone sign is an error and never a value.", "quantifier": "every source and integer type", "why_tests_cant": "Must hold for any continuation of the input after the sign.", "anchors": ["src/scn/impl.h: parse_numeric_sign, reader_impl_for_int"]}
{"id": "C13", "title": "Number and string scanning does not depend on how the source is stored", "statement": "Scanning the same characters from a contiguous source (string) and from a non-contiguous or file source, however the latter is split into segments, gives the same value, the same error code and the same number of consumed characters.", "quantifier": "every input, every segmentation, every reader", "why_tests_cant": "The number of segmentations is exponential in the input length and the two code paths are separate implementations.", "anchors": ["src/scn/impl.h: read_while_classic_space, read_until_classic_space, read_until_code_point, read_all, reader_impl_for_int, string_reader", "include/scn/scan.h: basic_scan_buffer::forward_iterator"]}
{"id": "C14", "title": "Reading from a buffer yields exactly the underlying characters, once, in order", "statement": "However fill() delivers data, iterating the source range from position 0 yields the concatenation of all delivered data; an iterator at position p always denotes character p of that concatenation, also after further fills (earlier iterators stay valid).", "quantifier": "every sequence of fills and every sequence of iterator operations", "why_tests_cant": "The history of fills is unbounded and put-back storage is shared by all iterators.", "anchors": ["include/scn/scan.h: basic_scan_buffer, forward_iterator, get_segment_starting_at, get_character_at, basic_scan_forward_buffer_impl::fill", "src/scn/impl.h: basic_scan_file_buffer::fill"]}
{"id": "C15", "title": "After scanning a FILE the file position is right after the consumed characters", "statement": "Whatever was buffered ahead, after a successful or failed scan of a file, a subsequent C read returns the first character the scan did not consume: nothing is lost and nothing is duplicated.", "quantifier": "every file content, every buffering behaviour, every consumed length", "why_tests_cant": "Depends on every alignment between stdio buffer boundaries and the consumed length.", "anchors": ["src/scn/impl.h: basic_scan_file_buffer::sync, fill", "src/scn/impl.cpp: sync_after_vscan, vscan_impl"]}
{"id": "C16", "title": "Nested scanning from a context range sees exactly the remaining input", "statement": "A user scanner that scans from ctx.range() sees exactly the characters of the source from the current position on, whether or not the source is contiguous and however much has already been buffered.", "quantifier": "every source, every position, every state of the underlying buffer", "why_tests_cant": "The reference buffer has to agree with the parent buffer in every state of put-back storage.", "anchors": ["include/scn/scan.h: basic_scan_ref_buffer, make_scan_buffer"]}
{"id": "C17", "title": "Format string parsing is total and memory safe", "statement": "For every format string, valid or not, parsing terminates, never reads outside the format string, and either accepts it or reports invalid_format_string.", "quantifier": "every string used as a format string", "why_tests_cant": "Format strings are unbounded; out-of-bounds reads occur only at particular truncations.", "anchors": ["include/scn/scan.h: parse_format_string_impl, parse_replacement_field, parse_arg_id, parse_format_specs, parse_align, parse_width, parse_precision, parse_presentation_set, parse_presentation_regex"]}
{"id": "C18", "title": "Format string parsing implements the documented grammar", "statement": "Rendering any replacement-field description (argument id, fill, alignment, width, precision, L, type) and literal text according to the documented grammar and parsing the result yields back exactly that description, in order; '{{' and '}}' denote literal braces.", "quantifier": "every sequence of literals and replacement fields permitted by the grammar", "why_tests_cant": "The grammar has unboundedly many sentences and all field combinations interact.", "anchors": ["include/scn/scan.h: parse_format_string_impl, parse_replacement_field, parse_format_specs, specs_setter"]}
{"id": "C19", "title": "Argument indexing rules are enforced", "statement": "A scan succeeds only if every replacement field refers to an existing argument, no argument is referred to twice, every argument is referred to, and automatic and manual indexing are not mixed; then every argument is scanned exactly once, into the argument with the stated index.", "quantifier": "every format string and every argument count", "why_tests_cant": "Ranges over all sequences of ids and all argument counts (also more than 64, where bookkeeping changes representation).", "anchors": ["src/scn/impl.cpp: format_handler_base::set_arg_as_visited, check_args_exhausted, format_handler", "include/scn/scan.h: basic_scan_parse_context::next_arg_id, check_arg_id"]}
{"id": "C20", "title": "Literal text in the format string is matched code point by code point", "statement": "A non-whitespace literal consumes exactly one identical code point of the source and anything else is invalid_literal; a whitespace literal consumes any and all consecutive whitespace (possibly none); with well-formed text this holds for every code point, not only ASCII.", "quantifier": "every literal text and every source", "why_tests_cant": "Quantifies over all texts; multi-byte literals and end-of-source cases are easily missed by samples.", "anchors": ["src/scn/impl.cpp: format_handler::on_literal_text", "include/scn/scan.h: is_cp_space"]}
{"id": "C21", "title": "A scan result is a prefix and the rest of the input is untouched", "statement": "On success the returned range is a suffix of the source; the consumed part is exactly the characters matched by the format in order; scanning the rest afterwards behaves as if the consumed prefix had never been there.", "quantifier": "every source, format and argument list", "why_tests_cant": "Position arithmetic between source, buffer and context must agree for every history.", "anchors": ["src/scn/impl.cpp: vscan_internal, vscan_impl", "include/scn/scan.h: make_vscan_result_range, fill_scan_result"]}
{"id": "C22", "title": "Scanning with \"{}\" shortcuts is the same as the general format path", "statement": "scan_value<T>(src), scan<T>(src, \"{}\") and scanning through the general format-string machinery give the same value, error and remaining range.", "quantifier": "every source and every argument type", "why_tests_cant": "Different code paths must agree on every input.", "anchors": ["src/scn/impl.cpp: is_simple_single_argument_format_string, scan_simple_single_argument, vscan_internal, vscan_value_internal"]}
{"id": "C23", "title": "Word scanning reads exactly up to the next whitespace", "statement": "Scanning a string with no specifier or 's' skips leading whitespace and returns exactly the longest following run without whitespace code points; it fails with end_of_input on blank input and never returns an empty string.", "quantifier": "every source", "why_tests_cant": "Whitespace is a set of code points of several encoded lengths; runs are unbounded.", "anchors": ["src/scn/impl.h: word_reader_impl, string_reader, skip_classic_whitespace"]}
{"id": "C24", "title": "Character-set scanning reads exactly the longest run of members", "statement": "Scanning a string with [set] returns the longest prefix all of whose code points belong to the set described by the specifier (single code points, inclusive ranges, inversion by '^'), and fails if that prefix is empty.", "quantifier": "every set specifier and every source", "why_tests_cant": "Sets range over the 1.1 million code points with ASCII handled by a bitmap and the rest by re-parsing the specifier.", "anchors": ["include/scn/scan.h: parse_presentation_set, specs_setter::on_charset_range", "src/scn/impl.h: character_set_reader_impl, nonascii_specs_handler"]}
{"id": "C25", "title": "'c' scanning reads exactly the requested number of characters", "statement": "Scanning a string with '.N' precision and 'c' reads exactly N columns of code points including whitespace, and fails if fewer are available.", "quantifier": "every source and every precision", "why_tests_cant": "Interaction between display width, multi-byte code points and end of input.", "anchors": ["src/scn/impl.h: character_reader_impl, take_width_view, counted_width_iterator"]}
{"id": "C26", "title": "Precision bounds what is read", "statement": "With precision N no reader consumes more than N columns of display width for the field (leading whitespace of right-aligned types excepted), no code point is split, and the text after the bound is left unread.", "quantifier": "every source, reader and precision", "why_tests_cant": "Every combination of widths 1 and 2 and of multi-byte sequences around the bound.", "anchors": ["src/scn/impl.h: take_width, counted_width_iterator, calculate_text_width, arg_reader"]}
{"id": "C27", "title": "Fill and alignment consume exactly the documented fill", "statement": "For '<', '>' and '^' the fill code points before and/or after the value are consumed as documented, the value itself is unaffected by them, and width/precision violations are reported (length_too_short / invalid_fill).", "quantifier": "every fill, alignment, width, precision and source", "why_tests_cant": "Three alignments times bounds times fills over unbounded inputs.", "anchors": ["src/scn/impl.h: skip_fill, arg_reader::impl_prefix, impl_postfix, check_widths_for_arg_reader"]}
{"id": "C28", "title": "Boolean scanning accepts exactly the documented spellings", "statement": "Without locale, bool scanning accepts exactly 'true'/'false' (textual) and '0'/'1' (numeric) as permitted by the specifier, consumes exactly those characters and returns the matching value; everything else is an error.", "quantifier": "every source and every permitted specifier", "why_tests_cant": "Must exclude every other input.", "anchors": ["src/scn/impl.h: bool_reader_base, bool_reader, reader_impl_for_bool"]}
{"id": "C29", "title": "Character scanning reads one unit, code point scanning reads one code point", "statement": "Scanning a char returns the first unit unchanged (whitespace included) and leaves the rest; scanning char32_t returns the first code point and consumes exactly its units, and malformed or truncated encodings are reported as errors.", "quantifier": "every source", "why_tests_cant": "Every byte value and every malformed sequence.", "anchors": ["src/scn/impl.h: code_unit_reader, code_point_reader, reader_impl_for_char, reader_impl_for_code_point"]}
{"id": "C30", "title": "Integer presentation types for characters store the scanned number", "statement": "Scanning a char with an integer specifier stores the scanned number, as documented ('same as for integers').", "quantifier": "every in-range number and base", "why_tests_cant": "The stored value must be right for every number, not just that scanning succeeds.", "anchors": ["src/scn/impl.h: reader_impl_for_char::read_specs, reader_impl_for_wchar::read_specs"]}
{"id": "C31", "title": "Pointer scanning is hexadecimal integer scanning", "statement": "Scanning a void* accepts exactly what hexadecimal unsigned integer scanning (optional 0x) accepts and yields that address.", "quantifier": "every source", "why_tests_cant": "Value range 2^64.", "anchors": ["src/scn/impl.h: reader_impl_for_voidptr"]}
{"id": "C32", "title": "Floating-point input is delimited by the documented grammar", "statement": "The characters handed to the conversion routine are exactly the longest prefix matching the selected floating-point grammar (decimal, scientific, fixed, hex, inf, nan), with sign handled separately, and exactly these characters are consumed; every string in the grammar is accepted.", "quantifier": "every source and every float specifier", "why_tests_cant": "Longest-match over an infinite language with backtracking points (e.g. '1e+x').", "anchors": ["src/scn/impl.h: float_reader, reader_impl_for_float", "src/scn/impl.cpp: dispatch_impl, parse_value_impl"]}
{"id": "C33", "title": "Type-erased argument lists preserve count, types and order", "statement": "For every list of argument types the packed descriptor returns, for each index, the type and the slot of that argument, an empty argument for every other index, and the right count, in packed and unpacked representation.", "quantifier": "every list of argument types and every index", "why_tests_cant": "All type lists up to the packing limit and beyond.", "anchors": ["include/scn/scan.h: encode_types, basic_scan_args::get, size, type, determine_arg_store_kind"]}
{"id": "C34", "title": "Chrono format strings are parsed as documented", "statement": "Every conversion specification in a chrono format is recognised wherever it appears: literal text (including non-ASCII) before a '%' does not change how the following specification is interpreted, parsing terminates and never reads outside the format string.", "quantifier": "every chrono format string", "why_tests_cant": "Literals are arbitrary text; each position interacts with multi-byte characters.", "anchors": ["include/scn/chrono.h: parse_chrono_format_specs"]}
{"id": "C35", "title": "Scanned date/time fields are within their documented ranges", "statement": "After a successful scan every field of datetime_components/tm is in its documented range ([0-60] seconds, [0-59] minutes, [0-23] hours, [1-31] days, months 1..12, yday [0-365], ...), and every in-range value is accepted.", "quantifier": "every source and every conversion specification", "why_tests_cant": "Range checks must hold for every digit string.", "anchors": ["src/scn/impl.cpp: datetime_setter, tm_reader", "include/scn/chrono.h: datetime_components"]}
{"id": "C36", "title": "12-hour clock and century/year combination are computed correctly", "statement": "For every hour 1..12 and AM/PM the resulting 24-hour value is the right one, and for every century and two-digit year (or either alone) the resulting year is the documented one (69-99 -> 19xx, 00-68 -> 20xx), for both tm and datetime_components.", "quantifier": "all hours, AM/PM, centuries and short years, in either order of specification", "why_tests_cant": "Combination logic spans several setters; all combinations must agree.", "anchors": ["include/scn/chrono.h: setter_state::handle_am_pm, handle_short_year_and_century", "src/scn/impl.cpp: tm_reader"]}
{"id": "C37", "title": "Conflicting or missing chrono fields are rejected", "statement": "A chrono format that sets a field twice, mixes 12- and 24-hour clocks, full year and century/short year, tz name and offset, or more than one of wday/mday/yday is rejected; a format for a component type (day, month, ...) that does not set that component is rejected, so an unset component is never returned.", "quantifier": "every chrono format string and destination type", "why_tests_cant": "All subsets of about twenty fields.", "anchors": ["include/scn/chrono.h: setter_state::verify, tm_format_checker, chrono_component_scanner, scanner<day>"]}
{"id": "C38", "title": "Range and tuple syntax round trips", "statement": "Writing any list of values as '[a, b, c]' (tuples '(a, b)') with arbitrary whitespace around the elements and scanning it back yields the same list and stops right after the closing bracket; malformed syntax is an error and never reads past the end of the source.", "quantifier": "every nest of lists, sets, maps and tuples of numbers, every whitespace layout, every suffix", "why_tests_cant": "Lists are unbounded.", "anchors": ["include/scn/ranges.h: scan_str, range_scanner_base_for_ranges, scanner<Tuple>"]}
{"id": "C39", "title": "istream adaptor consumes exactly what operator>> extracted", "statement": "When a type is scanned through its operator>>, the position returned is exactly after the characters extracted by the stream, whatever sequence of get, peek and unget operations operator>> performs.", "quantifier": "every source and every sequence of stream buffer operations", "why_tests_cant": "The operator>> is user code: any interleaving of peek/get/unget is possible.", "anchors": ["include/scn/istream.h: basic_range_streambuf, basic_istream_scanner"]}
{"id": "C40", "title": "Compile-time acceptance implies run-time acceptance of the format string", "statement": "A format string accepted by the compile-time checker for given argument types never produces invalid_format_string at run time.", "quantifier": "every format string and every list of argument types", "why_tests_cant": "Two independent checkers must agree on all strings.", "anchors": ["include/scn/scan.h: format_string_checker, scanner_parse_for_builtin_type", "src/scn/impl.cpp: format_handler"]}
{"id": "C41", "title": "Locale grouping is validated when scanning with thousands separators", "statement": "With the L flag, thousands separators are only accepted where the locale's grouping puts them, and the value is that of the digits with separators removed.", "quantifier": "every grouping, every digit string", "why_tests_cant": "Groupings and positions are unbounded.", "anchors": ["src/scn/impl.h: parse_integer_digits_with_thsep, reader_impl_for_int::read_localized"]}
{"id": "C42", "title": "Bit-manipulation helpers meet their specification", "statement": "Byte swapping reverses the bytes, the zero-byte/greater-than-n tests on a 64-bit word answer for the first matching byte exactly, and the fast logarithms are exact, for every word.", "quantifier": "every 64-bit word", "why_tests_cant": "2^64 words; cross-byte carries.", "anchors": ["src/scn/impl.h: byteswap, has_zero_byte, has_byte_greater, get_index_of_first_nonmatching_byte, log2_fast, log2_pow2_fast"]}
{"id": "C43", "title": "Fill character from the format string is the fill that is skipped", "statement": "The fill code point written in the format string (any code point but braces, narrow or wide) is exactly the code point skipped as fill.", "quantifier": "every code point", "why_tests_cant": "Every code point, in each encoding.", "anchors": ["include/scn/scan.h: fill_type, parse_align", "src/scn/impl.h: skip_fill"]}
{"id": "C44", "title": "The error reported is that of the first element that fails", "statement": "When scanning fails, the returned error is the one raised by the first element of the format string (literal, white space or replacement field) that could not be matched.", "quantifier": "every format string, source and argument list", "why_tests_cant": "Which error survives depends on interactions between later elements and the exit checks, for unboundedly many format strings.", "anchors": ["src/scn/impl.cpp: format_handler, vscan_parse_format_string, check_args_exhausted", "include/scn/scan.h: parse_format_string"]}
{"id": "C45", "title": "Reading an integer is total and stays inside the source", "statement": "For every source, every base and every integer type, reading an integer ends with either an error or a value representable in the type together with a position inside the source; it never reads past the end, never overflows and always terminates.", "quantifier": "every unit string, every base, every integer type", "why_tests_cant": "Out-of-range reads and signed overflow only show on adversarial inputs and may go unnoticed even then.", "anchors": ["src/scn/impl.h: reader_impl_for_int", "src/scn/impl.cpp: parse_integer_value"]}
{"id": "C46", "title": "Leading whitespace is not counted in width and precision", "statement": "For types whose leading whitespace is skipped, whitespace in front of the value changes neither the value, nor whether the field is wide enough, nor how much of the value the precision admits (documented for the field width).", "quantifier": "every type that skips whitespace, every width, precision and source", "why_tests_cant": "Whitespace is a set of code points of several lengths, any number of which may come first.", "anchors": ["include/scn/scan.h: documentation of fill-and-align, width and precision", "src/scn/impl.h: arg_reader::impl_prefix, check_widths_for_arg_reader"]}
{"id": "C47", "title": "A scanned string is a contiguous part of the consumed text", "statement": "For every format-spec that parses and every source, ill-formed ones included, scanning a string either reports an error or yields a value that is a contiguous, validly encoded part of the text before the position that is left (transcoded if the destination has another character type); a string_view is only ever given out if the source is contiguous and has the same character type. No input makes it read outside the source.", "quantifier": "every format-spec, every source of code units, every destination type", "why_tests_cant": "The fast paths rely on validity of data read earlier; what happens on ill-formed text and with unusual specifiers is not enumerable.", "anchors": ["src/scn/impl.h: reader_impl_for_string, read_string_impl, read_string_view_impl, arg_reader", "include/scn/scan.h: format_specs"]}
{"id": "C48", "title": "A regular expression reaches the engine as it was meant, and its match is the value", "statement": "Scanning a string with /pattern/flags hands the regular expression engine exactly the pattern (escaped slashes replaced by slashes) and the given flags, and the value is exactly what the engine matched at the current position. With a precision, or on a source that is not contiguous, it is an error.", "quantifier": "every pattern, every set of flags, every source, every engine", "why_tests_cant": "Escaping, flag parsing and the hand-over interact for every pattern.", "anchors": ["include/scn/scan.h: parse_presentation_regex", "src/scn/impl.h: regex_string_reader_impl, read_regex_string_impl"]}
{"id": "C49", "title": "Scanning any mixture of built-in types is safe on any text", "statement": "For every format string, every source of code units and every list of arguments of built-in types, scanning ends with values or with an error: nothing outside the format string and the source is read, no precondition of an internal routine is violated, and on success the position returned is a position of the source.", "quantifier": "every format string, every source (well formed or not), every list of built-in arguments", "why_tests_cant": "Every combination of argument types, specifiers and ill-formed sources would have to be run under a sanitizer.", "anchors": ["src/scn/impl.cpp: vscan_impl, vscan_parse_format_string", "src/scn/impl.h: make_reader, default_arg_reader, arg_reader, reader_impl_for_int, reader_impl_for_bool, reader_impl_for_char, reader_impl_for_code_point, reader_impl_for_voidptr, reader_impl_for_string"]}
{"id": "C50", "title": "A date written in a format is read back from it", "statement": "For every chrono format whose conversion specifiers fit together and every text that shows values in this format (numbers with the digits the specifier allows, full or abbreviated names in any case, offsets, literal characters and white space), scanning succeeds, stores exactly the date those values make in every field and leaves every other field unset, and stops right behind the text.", "quantifier": "every format of literals, white space and conversion specifiers; every text that shows a date in it; every destination type", "why_tests_cant": "Formats are sequences of about sixty specifiers in any order with any literals between them, and dates and spellings multiply with them.", "anchors": ["include/scn/chrono.h: parse_chrono_format_specs, datetime_setter, tm_format_checker", "src/scn/impl.cpp: tm_reader, chrono_scan_impl"]}
{"id": "C51", "title": "A localized float is read as the number it shows in the locale", "statement": "With the L flag, a floating-point field reads the longest prefix of the text which is a number written with the locale's decimal point and thousands separator, stores the value of that number without its separators, and consumes exactly it; a text which starts with no such number is refused. A locale with the usual separators reads as without the flag.", "quantifier": "every text, every pair of separators, every presentation type except hexadecimal", "why_tests_cant": "Every pair of separators and every placement of them would have to be tried, in locales that have to be installed.", "anchors": ["src/scn/impl.h: float_reader, localized_number_formatting_options, reader_impl_for_float::read_specs", "src/scn/impl.cpp: float_reader_base dispatch"]}
{"id": "C52", "title": "A regex_matches holds the match and every subexpression under its own name", "statement": "Scanning a regex_matches with /pattern/flags asks the regular expression engine for exactly the pattern with the documented meaning of the flags (m: ends of lines, s: '.' matches a newline, i: case, n: no subexpressions), at the position of the field without skipping white space. On a match the value holds the entire match first, which is exactly the text consumed, and then for every subexpression the text it matched and its name if it has one, or nothing if it took no part; an invalid pattern is an invalid format string, no match an invalid value.", "quantifier": "every pattern, every set of flags, every text, every engine of the three supported backends", "why_tests_cant": "Captures that coincide, take no part or bear names multiply with the patterns, and each backend is a separate build.", "anchors": ["src/scn/impl.h: make_regex_flags, read_regex_string_impl, read_regex_matches_impl, regex_matches_reader", "include/scn/regex.h: basic_regex_match, basic_regex_matches"]}
{"id": "C53", "title": "A scanned time point is the instant that is written", "statement": "Scanning a std::chrono::time_point of the system clock from a text that gives a date, and possibly a time of day, yields the instant of this date and time in the current time zone in whole ticks of the time point's duration, down to the fraction of a second that is written. A date that does not exist, a format that does not give a date, and an instant the duration cannot hold are reported as errors.", "quantifier": "every format, every date, every duration with an integral representation", "why_tests_cant": "Every day of every year in every format and every duration type; overflow and rounding only show on few of them.", "anchors": ["include/scn/chrono.h: time_since_unix_epoch, scanner of std::chrono::time_point, datetime_components::to_tm"]}
{"id": "C54", "title": "A datetime_components converts to the std::tm that would have been scanned", "statement": "Scanning into a datetime_components and converting it with to_tm gives, field by field, what scanning the same text with the same format into a zeroed std::tm gives.", "quantifier": "every format, every text that shows a date in it", "why_tests_cant": "Formats and dates are unbounded; the two destinations use different offsets for month and year and different range checks.", "anchors": ["include/scn/chrono.h: datetime_components::to_tm", "src/scn/impl.cpp: datetime_setter, tm_reader"]}
{"id": "C55", "title": "Values read from a file one call at a time are those the file contains, in order", "statement": "Calling input or scan on a file several times, with one plain field per call, gives the values that scanning the whole contents of the file as a string gives in the same order, and the first call that fails is the one that fails there; between calls the file stands right behind the value that was read, however the buffering of the file divides its contents. Reading the same fields in one call gives the same values.", "quantifier": "every contents of a file, every division of it into buffers, every sequence of calls", "why_tests_cant": "The division of a file into buffers is up to the C library, and faults show only where a value ends at the edge of one.", "anchors": ["src/scn/impl.cpp: vinput, vscan_impl", "src/scn/impl.h: stdin file buffers", "include/scn/scan.h: basic_scan_file_buffer, scan_context buffers"]}
{"id": "C56", "title": "Reading a source in a loop gives all the values in it, in order", "statement": "The documented loop - scan one value from a subrange, go on from the range the call has returned, stop at the first failure - ends on every source. From integers separated by white space it collects exactly these integers, from any text exactly its words; it stops with EndOfInput if only white space is left and otherwise at the first thing that is not a value, and the range it stops with is what has not been read. It makes no difference whether the source is a string, a range that is not contiguous, or an array of characters.", "quantifier": "every source text, every number of values, every type read without options", "why_tests_cant": "The number of calls is unbounded and each starts at a position the one before has left; an off-by-one in the returned range shows only after some calls.", "anchors": ["include/scn/scan.h: make_scan_buffer, make_vscan_result_range, vscan_generic, scan", "docs/pages/guide.md: loops over the returned range"]}
{"id": "C57", "title": "The locale given to scan is the one its localized fields use, and only those", "statement": "A call scan(loc, source, format) reads every field that has the flag L in the locale loc, whatever the global locale is: the result is that of scan(source, format) in a program whose global locale is loc. Fields without L are read in the same way in every locale, whether one is given or not. This holds for scalar arguments, for the elements of ranges, and for types with scanners of their own.", "quantifier": "all locales given and global, format strings, sources, and lists of arguments", "why_tests_cant": "Tests use a few named locales installed on the machine, one argument at a time, and leave the global locale as it is; that some path drops the locale shows only when both differ.", "anchors": ["include/scn/scan.h: locale_ref, scan_context_base, scan(locale, ...)", "src/scn/impl.h: localized_number_formatting_options, default_arg_reader::make_custom_ctx, custom_reader", "src/scn/impl.cpp: locale_ref::get, scanner_scan_for_builtin_type, vscan_internal, vscan_localized_impl", "include/scn/ranges.h: range_scanner"]}
{"id": "C58", "title": "The ways to read one integer agree", "statement": "Reading an integer from a string gives the same value and the same rest, or the same error, whether it is read by scan_int with a base, by scan with a format string that names this base ({:d}, {:x}, {:X}, {:o}, {:b}, {:B}, {:i} for a base told by the prefix, {} for base 10, each with or without the argument number), or, in base 10, by scan_value.", "quantifier": "every string of bytes, every integer type, every base a format string can name", "why_tests_cant": "The entry points take different paths through parsing, skipping of white space and options; unit tests compare a few literals and no test compares the paths on the same input.", "anchors": ["include/scn/scan.h: scan_int, scan_value, scan", "src/scn/impl.cpp: scan_int_impl, vscan_internal, vscan_value_internal, format_handler", "src/scn/impl.h: reader_impl_for_int, default_arg_reader, arg_reader"]}
{"id": "C59", "title": "Discarding a value reads exactly what scanning it would", "statement": "Replacing an argument T of a call to scan by discard<T> changes nothing but that the value is not returned: the format string is accepted for the one exactly if it is for the other, the call succeeds or fails alike and with the same error, the same characters are consumed, and the other values are the same.", "quantifier": "every list of arguments with any of them discarded, format string, source and locale", "why_tests_cant": "Unit tests discard one int or string with \"{}\"; a discarded value takes a path of its own through compile-time checking, parsing of the format-spec and reading, and agreement of the two on all format strings and sources cannot be sampled.", "anchors": ["include/scn/scan.h: discard, scanner<discard<T>>, format_string_checker, parse_custom_arg, scanner_parse_for_builtin_type", "src/scn/impl.cpp: scanner_scan_for_builtin_type, format_handler", "src/scn/impl.h: arg_reader, default_arg_reader"]}
{"id": "C60", "title": "The same text gives the same values in every encoding", "statement": "Scanning a text given as a narrow (UTF-8) string and as a wide string with the same format string and arguments gives the same values, or the same error, and leaves the same text unread. In particular lengths in the source encoding play no role: widths, precisions, sets, fill characters and numbers are counted and matched by characters.", "quantifier": "every text, every format string, valid or not, and every list of arguments that both kinds of strings can be read to", "why_tests_cant": "Unit tests run the same literals in both encodings, nearly all of them ASCII; that a fast path treats a byte sequence and its code point differently shows only on particular texts.", "anchors": ["src/scn/impl.cpp: format_handler, vscan_internal", "src/scn/impl.h: read_while_classic_space, arg_reader, default_arg_reader, reader_impl_for_int, reader_impl_for_float, reader_impl_for_string, reader_impl_for_code_point, reader_impl_for_bool", "include/scn/scan.h: parse_format_string, format_specs"]}
{"id": "C61", "title": "What comes after the next white space does not change the values", "statement": "If scanning a text succeeds, the values depend only on the text up to the first white space that is left unread: any text may stand after that white space, or the text may end anywhere in what was left unread, and scanning gives the same values and leaves the changed rest. So reading from a longer input, or from one that arrives in pieces cut at white space, gives the values that reading from the shorter one gave.", "quantifier": "every text, every format string, valid or not, every list of arguments, every change of the unread text behind its first white space", "why_tests_cant": "Readers look ahead (base prefixes, exponents, \"inf\" and \"infinity\", names of booleans, widths); that a value does not change with what stands further on is a statement about all continuations of a text, and tests use one.", "anchors": ["src/scn/impl.cpp: format_handler, vscan_internal, impl::float_reader, parse_integer_value", "src/scn/impl.h: read_while_classic_space, arg_reader, default_arg_reader, reader_impl_for_int, reader_impl_for_float, reader_impl_for_string, reader_impl_for_bool"]}
{"id": "C62", "title": "The consumed text alone gives the same values", "statement": "If scanning a text succeeds, then scanning only the part that was consumed succeeds too, with the same values, and consumes all of it.", "quantifier": "every text, format string and list of arguments", "why_tests_cant": "What was consumed is the difference of two positions; that it is enough to get the values again is not visible in any single call, and depends on how each reader treats the end of the source.", "anchors": ["src/scn/impl.cpp: format_handler, vscan_internal", "src/scn/impl.h: arg_reader, default_arg_reader", "include/scn/scan.h: scan, scan_result::range"]}
{"id": "C63", "title": "Results can be copied, moved, assigned and destroyed safely", "statement": "The result of scan (scn::scan_expected, scn::expected) can be default-constructed, copied, moved, converted, assigned to (from another result, a value or an error), emplaced into and destroyed in any order, with any of the operations of the contained type throwing, without undefined behaviour: every contained object is destroyed exactly once, a variable shows the value or error last stored in it, a statement that returns has had its effect, one that fails throws, and leaves the old contents where a value was to replace an error or the other way round.", "quantifier": "every sequence of operations on any number of variables, every combination of exception specifications and triviality of the contained types, every choice of operations that throw", "why_tests_cant": "The faults need a contained type that throws at a particular point, after a particular history; unit tests use ints and strings that do not throw, and a leaked or twice destroyed object need not show.", "anchors": ["include/scn/scan.h: expected, expected_storage_base, expected_operations_base, scan_expected"]}
{"id": "C64", "title": "Continuations on results run exactly once or not at all", "statement": "and_then and transform call their function exactly once, with the value, if the result holds one, and otherwise pass the error on without calling it; or_else and transform_error do the same for the error; value_or and error_or give the contents or the default. Every error that scanning reports converts to a std::errc: out of range exactly for overflow and underflow, an I/O error exactly for a failed source; errors compare by code.", "quantifier": "every result, value, error and function", "why_tests_cant": "A statement about all functions and contents; unit tests of scan use a few of the operations with a few values.", "anchors": ["include/scn/scan.h: and_then_impl, or_else_impl, transform_impl, transform_error_impl, expected::value_or, expected::error_or, scan_error::to_errc, operator=="]}
{"id": "C65", "title": "A wider type reads the same", "statement": "If scanning into some types succeeds, scanning the same source with the same format string into wider types succeeds with the same values and leaves the same characters: integers into integers that can hold all their values, string views into strings; also as elements of ranges and tuples. Where the narrower types fail and the wider do not, the error is out of range, or the rejection of a minus sign by an unsigned type, or that no view can be made. Types of the same size are interchangeable in every respect, and so is a view with a string where it can be made. The format strings accepted at compile time are the same.", "quantifier": "every source, format string, locale and list of arguments, every replacement of types by wider ones", "why_tests_cant": "Each type has its own instantiation of the readers, with its own limits and shortcuts; tests check each with a few values and do not compare one type with another.", "anchors": ["src/scn/impl.cpp: parse_integer_value, check_integer_overflow, store_result, format_handler", "src/scn/impl.h: reader_impl_for_int, read_string_impl, read_string_view_impl", "include/scn/scan.h: check_format_string, specs_checker", "include/scn/ranges.h: range_scanner, scanner"]}
{"id": "C66", "title": "Text printed with a format string is scanned back by it", "statement": "The documentation describes format strings as largely compatible with those of std::format. Text printed by std::format with a format string of the common syntax (fill, alignment, width, type), each value padded as its field asks, is scanned by the same format string: the values printed are read, and the text behind is left. This holds for integers in every base, floating-point numbers, booleans, characters, strings and pointers, and for vectors, sets, maps and tuples of numbers, booleans and pointers.", "quantifier": "every format string of the common syntax, all arguments and values, every fill and width, every text behind", "why_tests_cant": "A statement about all format strings, and about the way the end of one value, its padding and the beginning of the next text are told apart; tests scan hand-written text with hand-picked format strings.", "anchors": ["include/scn/scan.h: parse_format_specs, parse_align, check_char_type_specs", "src/scn/impl.h: arg_reader, skip_fill, check_widths_for_arg_reader, reader_impl_for_int, float_reader_base, reader_impl_for_bool, reader_impl_for_char, string_reader", "src/scn/impl.cpp: vscan_parse_format_string, format_handler"]}
{"id": "C67", "title": "The format strings accepted are the documented ones", "statement": "The documentation lists the type specifiers for each type of argument. A format string passed to scan compiles exactly if its fields are numbered consistently, refer to every argument once, and each has a format-spec listed for the type of its argument, and a source that string views and regular expressions can refer to; every other one is rejected as an invalid format string. At run time (scn::runtime_format) nothing is scanned with a format-spec not listed.", "quantifier": "every format string of the grammar, all lists of built-in argument types, all sources", "why_tests_cant": "The tables cover some hundred combinations of types, letters and flags, checked in two places that are written separately; a test exercises a few of them, and a format string that is wrongly rejected cannot be part of a test that compiles.", "anchors": ["include/scn/scan.h: check_int_type_specs, check_char_type_specs, check_code_point_type_specs, check_float_type_specs, check_bool_type_specs, check_string_type_specs, check_pointer_type_specs, format_string_checker, scanner_parse_for_builtin_type", "src/scn/impl.h: arg_reader"]}
{"id": "C68", "title": "Numbered fields read as unnumbered ones, in the order of the numbers", "statement": "A format string whose fields carry the numbers of the arguments reads exactly what the same format string without numbers reads for the arguments in that order: it succeeds on the same sources, stores each value in the argument of that number, and leaves the same text; it is accepted at compile time for the same types. Numbers in order change nothing. A format string that mixes both kinds is rejected.", "quantifier": "every format string of the grammar, every permutation of the arguments, all sources", "why_tests_cant": "A statement about all permutations of any number of arguments; tests use two arguments swapped.", "anchors": ["include/scn/scan.h: parse_arg_id, basic_scan_parse_context::next_arg_id, basic_scan_parse_context::check_arg_id, format_string_checker", "src/scn/impl.cpp: format_handler::on_arg_id, format_handler::get_arg, set_arg_as_visited"]}
{"id": "C69", "title": "Which white space stands between values, and how much, does not matter", "statement": "The documentation says that values are preceded by any amount of white space, and that white space in the format string matches any amount of any white space. Two texts with the same visible characters and white space in the same places give the same values (or both fail), and leave texts that differ in that way only; at the beginning, before a value, there may be white space in one and none in the other. In the format string, a run of any white space is like one space. This holds for numbers, booleans, pointers and words without width; characters, character sets and widths see the white space.", "quantifier": "every format string of the grammar, all arguments and locales, every two texts equal up to white space", "why_tests_cant": "A statement about pairs of texts of any length with any mixture of white space, including that of Unicode; tests use single spaces and an occasional newline.", "anchors": ["src/scn/impl.h: skip_classic_whitespace, read_while_classic_space, arg_reader, default_arg_reader, word_reader_impl", "src/scn/impl.cpp: format_handler::on_literal_text"]}
{"id": "C70", "title": "Numbers are read without regard to the case of their letters", "statement": "Digits above nine, base prefixes, exponent letters, \"inf\" and \"nan\" may be written in small or capital letters. Two texts that differ only in the case of ASCII letters give the same integers, pointers and floating-point numbers, and ranges and tuples of them, and leave texts that differ in that way only, or fail with the same error; widths, precisions and fills which are not letters do not change this. Presentation types that have a capital form mean the same in both. The words for booleans are read with regard to case.", "quantifier": "every numeric type, range or tuple of them, format-spec and source, every two texts equal up to case; all format strings without letters in literals and fills, valid or not", "why_tests_cant": "A statement about pairs of texts of any length and any mixture of cases; tests try a few spellings of single numbers.", "anchors": ["src/scn/impl.h: read_matching_string_classic_nocase, fast_streq_nocase, ascii_tolower, parse_integer_base_prefix, float_reader::read_exponent, float_reader::read_inf, float_reader::read_nan", "src/scn/impl.cpp: char_to_int, fast_float_impl, strtod_impl", "include/scn/scan.h: parse_presentation_type"]}
{"id": "C71", "title": "Format-specs with the same documented meaning read the same", "statement": "The documentation gives some type specifiers as equal (\"none, s\", \"b, B\", \"x, X\", no letter for d, every integer letter for bool), a space as the default fill, and no width or precision as zero. Two format strings that differ only in such wordings, including an empty format-spec or none, are accepted for the same types of arguments, and scan the same values and leave the same text on the same sources.", "quantifier": "every two format strings of the grammar that are equal up to these wordings, all arguments, locales and sources", "why_tests_cant": "A statement about pairs of format strings; a field without a format-spec is read by code of its own, which tests compare with the other code on a few values only.", "anchors": ["include/scn/scan.h: parse_presentation_type, parse_format_specs, check_int_type_specs, check_bool_type_specs, check_string_type_specs", "src/scn/impl.h: default_arg_reader, arg_reader, reader_impl_for_int, reader_impl_for_bool, string_reader, reader_impl_for_voidptr"]}
{"id": "C72", "title": "An object scanned with a nested scan takes what its parts would take in its place", "statement": "The guide lets a user-defined scanner pass the remaining source (ctx.range()) and a format string of its own to scn::scan, make the object from the values, and return the position at which the nested scan ended. Scanning with a format string that has a field for such an object succeeds if and only if scanning with the format string that has the nested format string instead of the field does; the object is made of the same values, the other arguments get the same values, and the same text is left. Objects may be nested in objects.", "quantifier": "every list of arguments before and after the object, every list of parts, all format strings of the grammar with unnumbered fields, all sources", "why_tests_cant": "A statement about pairs of format strings and lists of arguments of any length and depth of nesting; tests have user-defined types with one or two fixed parts.", "anchors": ["include/scn/scan.h: basic_scan_ref_buffer, _make_scan_buffer::impl, vscan_generic, basic_scan_context::range", "src/scn/impl.cpp: get_custom, on_visit_scan_arg, vscan_internal", "docs/pages/guide.md: Scanning user types"]}
{"id": "C73", "title": "Scanning a date or time over an initial value changes the fields named in the format and no others", "statement": "The value of an argument can be given beforehand (the overloads of scan with initial values, scn::scan_value). Scanning a date or time into an object that already has a value succeeds, fails and stops exactly as scanning into a new one, the fields that the conversion specifiers of the format name get the values a new object would get, whatever they were, and all other fields stay as they were.", "quantifier": "every format, input, initial value, target type and locale", "why_tests_cant": "A statement about all initial values: the reader keeps flags of its own for what has been read (century, short year, 12-hour clock), and mixing them with what the object contains shows only for particular contents; tests scan into new objects.", "anchors": ["include/scn/scan.h: scan (initial values), scan_value", "src/scn/impl.cpp: tm_reader, datetime_setter, datetime_components scanner", "include/scn/chrono.h: datetime_components, tm_with_tz"]}
{"id": "C74", "title": "A successful scan of a date or time assigns exactly the fields its conversion specifiers name", "statement": "After a successful scan of a date or time, a field has been assigned if and only if a conversion specifier of the format is about it: %H and %I the hour, %p the hour, %T hours, minutes and seconds, %j the day of the year, and so on, also those that stand for several others; the fraction of a second and the name of the time zone likewise. Whatever the format does not ask for stays empty.", "quantifier": "every format, input, target type and locale", "why_tests_cant": "A statement about all formats; a field that is set by the way, or not set for a particular specifier on a particular path, shows only if the test looks at all fields of the result.", "anchors": ["src/scn/impl.cpp: tm_reader, datetime_setter", "include/scn/chrono.h: parse_chrono_format_specs, datetime_components"]}
{"id": "C75", "title": "A user type whose scanner derives from that of another type reads exactly as that type", "statement": "The guide lets a specialization of scn::scanner inherit from the scanner of another type, so that it has all its scanning properties, and only make its value from that of the base. Scanning with such types in place of the types they derive from accepts the same format strings, reads the same text, gives the values made of the values the base types would get, and fails with the same errors; the other arguments are not affected. This includes scn::discard<T>, whose scanner is derived from that of T.", "quantifier": "every list of arguments, some of which derive from others, every format string, source and locale", "why_tests_cant": "A statement about pairs of argument lists: built-in types are read by code of their own, which is not the code that their scanners run as base classes; tests have a wrapper of int with a few inputs.", "anchors": ["include/scn/scan.h: scan_custom_arg, parse_custom_arg, scanner, scanner<discard<T>>, format_string_checker", "src/scn/impl.cpp: scanner_scan_for_builtin_type, get_custom", "docs/pages/guide.md: Scanning user types", "include/scn/ranges.h: range_scanner_base"]}
{"id": "C76", "title": "Initial values given to scan do not show in what is read, and ranges are added to", "statement": "The overloads of scan that take initial values (for example to reuse the memory of a string) accept the same format strings, read the same text and fail with the same errors as the overloads without. A number, string or other scalar that was read has the value read, whatever it was before. A vector has its initial elements followed by those read, a set or map keeps its elements and gets those read whose keys it does not have; elements inside of ranges are new objects; tuples are read component by component.", "quantifier": "every list of scalars, ranges and tuples nested to any depth, every initial value of each, every format string, source and locale", "why_tests_cant": "A statement about all initial values and all ways a value is read (several of them append to or transcode into a string that exists); tests scan with a few initial strings.", "anchors": ["include/scn/scan.h: scan (initial values), make_scan_result", "include/scn/ranges.h: scan_impl, scan_inner_loop, add_element_to_range, scan_for_each", "src/scn/impl.h: transcode_if_necessary, transcode_impl, read_string_impl, reader_impl_for_char"]}
{"id": "C77", "title": "A localized date or time is what the locale reads", "statement": "With the flag L, a conversion specifier whose form depends on the locale (%c, %x, %X, %r, names of months and days, and the %E and %O forms) reads at the place where it stands what the std::time_get facet of the locale reads there for that specifier. The fields stored are those the facet gives, converted to the conventions of the destination; the scan continues where the facet stopped; it fails if the facet fails or if a field is out of range.", "quantifier": "all locales, whatever their facets read; all such specifiers, sources and destinations; formats that go on with other specifiers", "why_tests_cant": "Tests can only use the few locales that are installed, and have one specifier per format; that fields are mixed up or the place is wrong shows with other locales or formats.", "anchors": ["src/scn/impl.cpp: tm_reader::read_localized, on_loc_datetime, on_loc_date, on_loc_time, on_month_name, on_weekday_name, on_12_hour_time", "include/scn/chrono.h: parse_chrono_format_specs"]}
{"id": "C78", "title": "The end of the input is reported when nothing but white space is left", "statement": "A program that scans in a loop stops when the error is end_of_input and treats every other error as malformed input. With \"{}\", scan reports end_of_input if and only if nothing but white space is left (for characters: nothing at all); so leftover garbage is never taken for the end of the input, and the end is never taken for garbage. With other format strings, end_of_input is reported only by a field, at a place where in the columns it may use there is nothing but white space that it skips, or nothing but fill if it is aligned; never by literal characters or by the format string. With a format-spec without alignment for a type that skips white space, and with an alignment for numbers, exactly then.", "quantifier": "all scalar types, format strings, format-specs, sources and locales", "why_tests_cant": "The error comes from dozens of places in the readers, each taking its own view of what is left; tests have the error codes of a few inputs, and say nothing about the inputs for which the wrong error would end a loop early or never.", "anchors": ["src/scn/impl.h: skip_classic_whitespace, eof_check, eof_error, parse_numeric_sign, arg_reader, reader_impl_for_*", "src/scn/impl.cpp: format_handler, scan_simple_single_argument", "include/scn/scan.h: scan_error", "docs/pages/guide.md: Error handling and return values"]}
{"id": "C79", "title": "Every value that is read takes something from the source, so scanning in a loop ends", "statement": "A program that scans again and again from where the last call stopped, until a call fails, must not run forever. A successful scan of integers, floating-point numbers, booleans, characters and pointers, whatever the format string and the source, takes at least one code unit of the source for each value it stores, and what is left is the end of the source; so any number of calls store together no more values than the source has code units, and no endless sequence of calls succeeds. The same goes for a word read with \"{}\". A range or tuple takes at least the code units of its brackets and separators and one for each scalar in it, so that a container never has more elements than the source pays for.", "quantifier": "all format strings and format-specs, sources (valid or not, in any pieces), locales, lists of arguments, and sequences of calls with formats and types of their own", "why_tests_cant": "Termination is a statement about all executions: a single combination of format-spec and input for which a reader succeeds without progress makes a loop endless, and tests only run loops that end.", "anchors": ["src/scn/impl.h: reader_impl_for_*, arg_reader, parse_integer_value, float_reader, bool_reader", "src/scn/impl.cpp: format_handler, scan_simple_single_argument", "include/scn/scan.h: scan, scan_result", "docs/pages/guide.md: Error handling and return values"]}
