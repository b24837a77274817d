{
 "claims": [
  {
   "property": "C01",
   "status": "proved",
   "theorems": [
    "C01_ctype_classification",
    "C01_ctype_undefined_exactly"
   ],
   "note": "All twelve functions, on every int for which the code is defined; the set of arguments with undefined behaviour (c < INT_MIN+97 and the like) is characterised exactly."
  },
  {
   "property": "C02",
   "status": "proved",
   "theorems": [
    "C02_case_mapping",
    "C02_case_mapping_laws"
   ],
   "note": "tolower/toupper on every int."
  },
  {
   "property": "C03",
   "status": "proved",
   "theorems": [
    "C03_wctype_tokens",
    "C03_wide_classes_are_ascii",
    "C03_wctrans_tokens"
   ],
   "note": "All twelve class names and both mappings."
  },
  {
   "property": "C04",
   "status": "proved",
   "theorems": [
    "C04_utf8_roundtrip"
   ],
   "note": ""
  },
  {
   "property": "C05",
   "status": "partial",
   "theorems": [
    "C05_utf8_acceptance_partial",
    "C05_incomplete_iff_prefix_refuted"
   ],
   "note": "Acceptance and rejection are exactly Table 3-7; the \"only if\" half of the (size_t)-2 clause is false (E0 80 is reported incomplete), refuted by witness."
  },
  {
   "property": "C06",
   "status": "proved",
   "theorems": [
    "C06_chunking",
    "C06_chunked_decode"
   ],
   "note": "Any number of chunks, any sizes, empty ones included."
  },
  {
   "property": "C07",
   "status": "proved",
   "theorems": [
    "C07_wcrtomb_rejects"
   ],
   "note": ""
  },
  {
   "property": "C08",
   "status": "proved",
   "theorems": [
    "C08_mbsrtowcs",
    "C08_mbsrtowcs_count",
    "C08_every_string",
    "C08_wcsrtombs",
    "C08_wcsrtombs_count",
    "C08_roundtrip"
   ],
   "note": "mbsrtowcs, wcsrtombs, mbstowcs, wcstombs with destination limit and with null destination."
  },
  {
   "property": "C09",
   "status": "partial",
   "theorems": [
    "C09_utf16_roundtrip",
    "C09_utf16_rejects_partial",
    "C09_double_high_refuted"
   ],
   "note": "Round trip proved; rejection of ill-formed UTF-16 holds except that a second high surrogate silently replaces the first (refuted by witness)."
  },
  {
   "property": "C10",
   "status": "proved",
   "theorems": [
    "C10_shifts"
   ],
   "note": "Signed left shift of a negative value is taken to wrap (documented GCC/Clang behaviour)."
  },
  {
   "property": "C11",
   "status": "proved",
   "theorems": [
    "C11_products",
    "C11_signed_product"
   ],
   "note": ""
  },
  {
   "property": "C12",
   "status": "proved",
   "theorems": [
    "C12_udivmod"
   ],
   "note": ""
  },
  {
   "property": "C13",
   "status": "partial",
   "theorems": [
    "C13_divmod_partial",
    "C13_int128_min_refuted"
   ],
   "note": "False at full strength: INT128_MIN as dividend or divisor of the division, or as divisor of the remainder, overflows signed arithmetic inside the helper (refuted by witness); proved for all other operands."
  },
  {
   "property": "C14",
   "status": "partial",
   "theorems": [
    "C14_int_to_float_partial",
    "C14_int128_min_refuted"
   ],
   "note": "Proved for every unsigned 128-bit integer and every signed one except INT128_MIN, where -a overflows (refuted by witness)."
  },
  {
   "property": "C15",
   "status": "partial",
   "theorems": [
    "C15_float_to_int_partial",
    "C15_int128_min_refuted"
   ],
   "note": "Proved for every finite double/float whose truncation is representable, except exactly -2^127 (the helper negates INT128_MIN; refuted by witness)."
  },
  {
   "property": "C16",
   "status": "proved",
   "theorems": [
    "C16_comparisons"
   ],
   "note": ""
  },
  {
   "property": "C17",
   "status": "proved",
   "theorems": [
    "C17_widening_exact"
   ],
   "note": "NaN payloads are not specified."
  },
  {
   "property": "C18",
   "status": "partial",
   "theorems": [
    "C18_narrowing_partial",
    "C18_tie_refuted"
   ],
   "note": "To float: proved for every value. To double: proved except for the set trunctfdf_bad (exact ties whose kept part is even, and inexact values in the binade just below DBL_MIN), where the code misrounds; refuted by witness 1+2^-53."
  },
  {
   "property": "C19",
   "status": "partial",
   "theorems": [
    "C19_int_to_long_double_partial",
    "C19_min_refuted"
   ],
   "note": "Proved except for the most negative 64-/128-bit integers, whose negation overflows (refuted by witness)."
  },
  {
   "property": "C20",
   "status": "partial",
   "theorems": [
    "C20_long_double_to_int_partial",
    "C20_min_refuted"
   ],
   "note": "Proved except for exactly -2^127 to signed 128-bit, where the helper negates INT128_MIN (refuted by witness)."
  },
  {
   "property": "C21",
   "status": "proved",
   "theorems": [
    "C21_multiplication"
   ],
   "note": ""
  },
  {
   "property": "C22",
   "status": "partial",
   "theorems": [
    "C22_addition_partial",
    "C22_undefined_shift_refuted",
    "C22_misrounding_refuted"
   ],
   "note": "Proved on add_domain (all special cases; all finite pairs whose shift distance is not 0 and not the 114-bit power-of-two case). Outside it false: 1+1 shifts a 128-bit value by 128 (undefined behaviour, refuted), 1-1.5*2^-114 is misrounded (refuted)."
  },
  {
   "property": "C23",
   "status": "partial",
   "theorems": [
    "C23_division_special_partial",
    "C23_misrounding_refuted"
   ],
   "note": "Special cases proved; the finite quotient is not always correctly rounded (refuted by a concrete pair; about 1 in 3000 random pairs is wrong by one unit in the last place)."
  },
  {
   "property": "C24",
   "status": "proved",
   "theorems": [
    "C24_strlen"
   ],
   "note": ""
  },
  {
   "property": "C25",
   "status": "partial",
   "theorems": [
    "C25_strchr",
    "C25_strchr_reads",
    "C25_strrchr",
    "C25_memchr_partial",
    "C25_memchr_refuted"
   ],
   "note": "strchr and strrchr in full; memchr proved except for an absent byte when the length is shorter than the distance to the next 8-byte boundary, where it reads beyond the length (refuted by witness)."
  },
  {
   "property": "C26",
   "status": "proved",
   "theorems": [
    "C26_memcpy",
    "C26_memmove"
   ],
   "note": ""
  },
  {
   "property": "C27",
   "status": "partial",
   "theorems": [
    "C27_memset_partial",
    "C27_memset_refuted"
   ],
   "note": "Proved when the length reaches the next 8-byte boundary; shorter misaligned fills wrap the length and run away (refuted by witness)."
  },
  {
   "property": "C28",
   "status": "proved",
   "theorems": [
    "C28_memcmp",
    "C28_strcmp",
    "C28_strncmp",
    "C28_total_order"
   ],
   "note": ""
  },
  {
   "property": "C29",
   "status": "partial",
   "theorems": [
    "C29_strcpy",
    "C29_strcat",
    "C29_strncat_partial",
    "C29_strncpy_partial",
    "C29_strncat_refuted",
    "C29_strncpy_refuted"
   ],
   "note": "strcpy and strcat in full; strncpy proved except for short misaligned padding (refuted, inherits memset), strncat proved for sources shorter than the limit; for longer sources it writes no terminator (exact effect proved, claim refuted)."
  },
  {
   "property": "C30",
   "status": "proved",
   "theorems": [
    "C30_strspn",
    "C30_strcspn",
    "C30_strpbrk",
    "C30_longest_segment"
   ],
   "note": ""
  },
  {
   "property": "C31",
   "status": "proved",
   "theorems": [
    "C31_one_call",
    "C31_exhausted",
    "C31_tokens"
   ],
   "note": ""
  },
  {
   "property": "C32",
   "status": "partial",
   "theorems": [
    "C32_strstr_partial",
    "C32_memmem_partial",
    "C32_strstr_refuted"
   ],
   "note": "Any non-NULL result is an occurrence, for every needle below 2^31 bytes; first occurrence and NULL iff absent for two-sided needles; false otherwise: strstr(\"aab\",\"ab\") is NULL (refuted by witness)."
  },
  {
   "property": "C33",
   "status": "proved",
   "theorems": [
    "C33_strxfrm",
    "C33_order"
   ],
   "note": ""
  },
  {
   "property": "C34",
   "status": "partial",
   "theorems": [
    "C34_every_string_reads",
    "C34_strtol_partial",
    "C34_strtoll_partial",
    "C34_strtoul",
    "C34_strtoull",
    "C34_strtol_refuted"
   ],
   "note": "strtoul and strtoull in full. strtol/strtoll: proved except for strings denoting exactly the minimum value, which are undefined behaviour (signed overflow in the negation) (refuted by witness)."
  },
  {
   "property": "C35",
   "status": "partial",
   "theorems": [
    "C35_atoi_partial",
    "C35_atoi_refuted"
   ],
   "note": "Proved for every leading integer the code can accumulate without signed overflow; the minimum value itself is undefined behaviour (refuted by witness)."
  },
  {
   "property": "C36",
   "status": "proved",
   "theorems": [
    "C36_qsort",
    "C36_swap_bytes",
    "C36_low_address"
   ],
   "note": "Introsort with all three phases; elements move as whole values (the byte-level copy is C26, the byte-level swap is C36_swap_bytes). The address condition is necessary: see C36_low_address."
  },
  {
   "property": "C37",
   "status": "partial",
   "theorems": [
    "C37_bsearch_partial",
    "C37_bsearch_never_returns",
    "C37_bsearch_refuted"
   ],
   "note": "Present keys are found, and a key below every element gives NULL, for every size; an absent key above the first element makes the loop run forever (proved: no fuel suffices)."
  },
  {
   "property": "C38",
   "status": "proved",
   "theorems": [
    "C38_exit",
    "C38_quick_exit",
    "C38_registration",
    "C38_terminates"
   ],
   "note": "Any pattern of registrations, including by running handlers. Handlers that call exit or longjmp are not modelled. Termination is proved for handlers that register nothing."
  },
  {
   "property": "C39",
   "status": "partial",
   "theorems": [
    "C39_no_handlers_partial",
    "C39_handlers_not_run_refuted"
   ],
   "note": "False: _start ends the process without running the atexit table (refuted by witness); with an empty table the effects agree up to the no-op flush."
  },
  {
   "property": "C40",
   "status": "proved",
   "theorems": [
    "C40_getenv",
    "C40_equals_in_name",
    "C40_no_environment"
   ],
   "note": ""
  },
  {
   "property": "C41",
   "status": "proved",
   "theorems": [
    "C41_rand_range",
    "C41_unseeded",
    "C41_reproducible"
   ],
   "note": ""
  },
  {
   "property": "C42",
   "status": "proved",
   "theorems": [
    "C42_abs",
    "C42_div"
   ],
   "note": ""
  },
  {
   "property": "C43",
   "status": "proved",
   "theorems": [
    "C43_gmtime",
    "C43_localtime",
    "C43_range"
   ],
   "note": ""
  },
  {
   "property": "C44",
   "status": "partial",
   "theorems": [
    "C44_mktime_inverts_gmtime",
    "C44_mktime_normalises_partial",
    "C44_normalises_refuted"
   ],
   "note": "The round trip is proved for every representable t; normalisation is proved unless the day of the month reaches back before 1 March of a year divisible by 400 (e.g. 0 March 2000), where the result is off by 2^32 days (refuted)."
  },
  {
   "property": "C45",
   "status": "proved",
   "theorems": [
    "C45_strftime_bounds"
   ],
   "note": "Every format string, every struct tm whose year, month and day of year do not overflow int."
  },
  {
   "property": "C46",
   "status": "proved",
   "theorems": [
    "C46_asctime",
    "C46_ctime"
   ],
   "note": ""
  },
  {
   "property": "C47",
   "status": "proved",
   "theorems": [
    "C47_vsnprintf",
    "C47_vsprintf",
    "C47_total_length",
    "C47_snprintf"
   ],
   "note": ""
  },
  {
   "property": "C48",
   "status": "partial",
   "theorems": [
    "C48_decimal_partial",
    "C48_enough_room_partial",
    "C48_roundtrip",
    "C48_decimal_refuted"
   ],
   "note": "The layout is proved for every flags/width/precision and every argument that fits the digit buffer; the buffer is 1 byte long, so every argument of two or more digits overflows it (refuted); with 19 bytes the same code is proved right for every argument except INTMAX_MIN, whose negation overflows."
  },
  {
   "property": "C49",
   "status": "partial",
   "theorems": [
    "C49_octal",
    "C49_hex",
    "C49_unsigned_partial",
    "C49_unsigned_refuted"
   ],
   "note": "%o, %x and %X in full; %u within its 2-byte buffer (refuted for 100; it would be right with 20 bytes)."
  },
  {
   "property": "C50",
   "status": "partial",
   "theorems": [
    "C50_decimal_refuted",
    "C50_unsigned_refuted",
    "C50_octal_hex",
    "C50_decimal_room"
   ],
   "note": "Octal, hexadecimal and pointer buffers proved large enough; the decimal ones overflow for every argument of at least two (signed) or three (unsigned) digits (refuted)."
  },
  {
   "property": "C51",
   "status": "partial",
   "theorems": [
    "C51_string_partial",
    "C51_string_refuted"
   ],
   "note": "Proved unless the precision ends before the first 8-byte boundary, where the counter wraps and the whole string is printed (refuted)."
  },
  {
   "property": "C52",
   "status": "proved",
   "theorems": [
    "C52_input_calls_follow_the_reference_stream",
    "C52_ungetc_then_getc",
    "C52_no_byte_lost"
   ],
   "note": ""
  },
  {
   "property": "C53",
   "status": "partial",
   "theorems": [
    "C53_fread_zero_size_refuted",
    "C53_fread_short_read_refuted",
    "C53_fread_overflow_refuted",
    "C53_fread_partial",
    "C53_fwrite_zero_size_refuted",
    "C53_fwrite_partial"
   ],
   "note": "Refuted for size 0 (division by zero), products of 2^32 and more (wrap-around), and short host reads (end-of-file set early); proved otherwise."
  },
  {
   "property": "C54",
   "status": "proved",
   "theorems": [
    "C54_fgets",
    "C54_line_is_the_next_line",
    "C54_all_lines"
   ],
   "note": ""
  },
  {
   "property": "C55",
   "status": "proved",
   "theorems": [
    "C55_getdelim",
    "C55_no_memory_loses_a_byte"
   ],
   "note": "When allocation fails the character just read is lost (C55_no_memory_loses_a_byte)."
  },
  {
   "property": "C56",
   "status": "partial",
   "theorems": [
    "C56_mode_partial",
    "C56_bad_mode_rejected_refuted"
   ],
   "note": "Every mode starting with r, w or a proved; other modes are not rejected (refuted)."
  },
  {
   "property": "C57",
   "status": "partial",
   "theorems": [
    "C57_clearerr_refuted",
    "C57_clearerr_partial"
   ],
   "note": "clearerr also clears the append flag (refuted); proved for the rest of the stream."
  },
  {
   "property": "C58",
   "status": "partial",
   "theorems": [
    "C58_accounting_partial",
    "C58_lookahead_refuted"
   ],
   "note": "The look-ahead characters of a call are lost (refuted); proved for every format: at most three characters beyond those consumed are taken."
  },
  {
   "property": "C59",
   "status": "partial",
   "theorems": [
    "C59_integer_partial",
    "C59_in_range",
    "C59_width_refuted",
    "C59_long_refuted"
   ],
   "note": "Proved unless the width cuts the sign, 0 or 0x off (refuted: \"%1d%1d\" on \"07\" gives 0, 0), the item exceeds 127 characters (refuted) or is -2^63."
  },
  {
   "property": "C60",
   "status": "partial",
   "theorems": [
    "C60_lookup_partial",
    "C60_table_sound_partial",
    "C60_table_complete_partial",
    "C60_root_refuted",
    "C60_dot_refuted"
   ],
   "note": "The lookup and the table are proved; a preopened \"/\" is never matched by absolute paths and a preopened \"./a\" never by \"./a/b\" (refuted)."
  },
  {
   "property": "C61",
   "status": "partial",
   "theorems": [
    "C61_errno_partial",
    "C61_errno_refuted"
   ],
   "note": "Numbers 0..76 proved; larger numbers read outside the table (refuted)."
  },
  {
   "property": "C62",
   "status": "partial",
   "theorems": [
    "C62_signal",
    "C62_raise_partial",
    "C62_invalid_refuted"
   ],
   "note": "signal, and raise of valid numbers, proved; raise of an invalid number returns 0 and signal sets no errno (refuted)."
  },
  {
   "property": "C63",
   "status": "partial",
   "theorems": [
    "C63_abort_partial",
    "C63_abort_refuted"
   ],
   "note": "With SIGABRT caught or ignored proved; with the default disposition abort and raise recurse forever (refuted: no fuel suffices)."
  },
  {
   "property": "C64",
   "status": "partial",
   "theorems": [
    "C64_sbrk_partial",
    "C64_disjoint_partial",
    "C64_initial_break_refuted",
    "C64_overflow_refuted"
   ],
   "note": "Consecutive, disjoint, inside memory, unchanged on failure: proved below the 32-bit wrap. Refuted: an increment that wraps succeeds and moves the break backwards; the initial break lies in the first 256 bytes of memory, below static data."
  },
  {
   "property": "C65",
   "status": "proved",
   "theorems": [
    "C65_setlocale"
   ],
   "note": ""
  },
  {
   "property": "C66",
   "status": "proved",
   "theorems": [
    "C66_floor",
    "C66_floorf",
    "C66_ceil",
    "C66_ceilf",
    "C66_trunc",
    "C66_truncf"
   ],
   "note": ""
  },
  {
   "property": "C67",
   "status": "partial",
   "theorems": [
    "C67_round",
    "C67_roundf",
    "C67_llround",
    "C67_lroundf",
    "C67_lround_partial",
    "C67_lround_refuted"
   ],
   "note": "round, roundf, llround, lroundf, llroundf for every finite argument; lround for all but +-0.49999999999999994, where it returns +-1 (refuted)."
  },
  {
   "property": "C68",
   "status": "proved",
   "theorems": [
    "C68_fmod",
    "C68_fmodf"
   ],
   "note": ""
  },
  {
   "property": "C69",
   "status": "partial",
   "theorems": [
    "C69_remainder",
    "C69_remainderf",
    "C69_remquo_partial",
    "C69_remquof_partial",
    "C69_remquo_sign_refuted"
   ],
   "note": "remainder, remainderf and the remainder of remquo(f) in full; the quotient of remquo is right modulo 8 in magnitude, but its sign ignores the sign of the denominator (refuted: remquo(5,-3) stores +2)."
  },
  {
   "property": "C70",
   "status": "proved",
   "theorems": [
    "C70_frexp",
    "C70_frexpf",
    "C70_scalbn",
    "C70_scalbnf",
    "C70_roundtrip",
    "C70_roundtripf",
    "C70_ldexpl"
   ],
   "note": "frexp, frexpf, scalbn and scalbnf, ldexpl."
  },
  {
   "property": "C71",
   "status": "proved",
   "theorems": [
    "C71_ilogb",
    "C71_ilogbf",
    "C71_logb",
    "C71_logbf"
   ],
   "note": ""
  },
  {
   "property": "C72",
   "status": "proved",
   "theorems": [
    "C72_nextafter",
    "C72_nextafterf",
    "C72_nexttoward",
    "C72_nexttowardf"
   ],
   "note": "nextafter, nextafterf, nexttoward and nexttowardf."
  },
  {
   "property": "C73",
   "status": "partial",
   "theorems": [
    "C73_cancellation_refuted",
    "C73_large_refuted",
    "C73_subnormal_refuted"
   ],
   "note": "False at full strength, by three witnesses: cancellation with a scaled exponent (2*2-4 gives -0.25), an addend far larger than the product (1.5*1.5-2^55), and a subnormal result."
  },
  {
   "property": "C74",
   "status": "partial",
   "theorems": [
    "C74_fmaf_partial",
    "C74_normal_refuted",
    "C74_subnormal_refuted"
   ],
   "note": "Correctly rounded whenever the sum of the product and the addend rounded to double is exact or is not the midpoint of two floats, or the product is at least as large as the addend; refuted otherwise, with a witness in the normal and one in the subnormal range."
  },
  {
   "property": "C75",
   "status": "proved",
   "theorems": [
    "C75_fmin",
    "C75_fminf",
    "C75_fmax",
    "C75_fmaxf",
    "C75_fdim",
    "C75_fdimf"
   ],
   "note": ""
  },
  {
   "property": "C76",
   "status": "proved",
   "theorems": [
    "C76_truncl",
    "C76_nexttowardl"
   ],
   "note": ""
  },
  {
   "property": "C77",
   "status": "partial",
   "theorems": [
    "C77_nearbyintl_partial",
    "C77_large_refuted"
   ],
   "note": "Proved for long doubles whose value is a double; false for others (refuted: 2^53+1 gives 2^53+2)."
  },
  {
   "property": "C78",
   "status": "partial",
   "theorems": [
    "C78_strtod_decimal_partial",
    "C78_strtof_decimal_partial",
    "C78_strtod_hex_partial",
    "C78_strtof_hex_partial",
    "C78_infinity",
    "C78_nan_partial",
    "C78_no_conversion_partial",
    "C78_misrounding_refuted",
    "C78_strtof_refuted",
    "C78_hex_refuted",
    "C78_end_refuted"
   ],
   "note": "Proved: decimal constants with at most 18 significant digits, or up to 38 digits with a decimal exponent within 54 of zero or not extremely close to a midpoint; hexadecimal constants except those below the normal range with more than 53 (24) bits; inf and nan; texts that cannot start a number. Refuted: misrounding of a 38-digit constant, double rounding in strtof and of hexadecimal subnormals, *endptr for \"e5\", \"0.\" and \"nan(xyz)\".  Not covered: more than 38 digits."
  },
  {
   "property": "C79",
   "status": "partial",
   "theorems": [
    "C79_strftime_text_partial",
    "C79_strftime_text_refuted"
   ],
   "note": "All C11 specifiers except g G U V W z, which are copied verbatim (refuted for %U)."
  },
  {
   "property": "C80",
   "status": "proved",
   "theorems": [
    "C80_time",
    "C80_timespec_get",
    "C80_clock",
    "C80_failure"
   ],
   "note": ""
  },
  {
   "property": "C81",
   "status": "proved",
   "theorems": [
    "C81_stat_size",
    "C81_stat_time",
    "C81_stat_mode"
   ],
   "note": ""
  },
  {
   "property": "C82",
   "status": "partial",
   "theorems": [
    "C82_formatter_partial",
    "C82_width_refuted"
   ],
   "note": "Conversions d i u o x X c s and %%; decimal numbers within the code's buffers. %c and %s ignore the field width (refuted). %e and %g are rejected by the code."
  },
  {
   "property": "C83",
   "status": "partial",
   "theorems": [
    "C83_hexfloat_double_partial",
    "C83_hexfloat_long_double_partial",
    "C83_nonfinite",
    "C83_hexfloat_refuted"
   ],
   "note": "Proved for all finite arguments with no precision, precision 0, or full precision, and for normal numbers with every precision; zero and subnormals with 1 <= precision < full print too few digits (refuted)."
  },
  {
   "property": "C84",
   "status": "partial",
   "theorems": [
    "C84_fixed_large_partial",
    "C84_fixed_moderate_partial",
    "C84_enough_room_partial",
    "C84_fixed_small_partial",
    "C84_small_tie_refuted",
    "C84_nonfinite",
    "C84_fixed_refuted"
   ],
   "note": "Exact for |x| >= 2^64; for 2^-8 <= |x| < 99 correctly rounded away from near-ties and within 1/2 + 2^-49 ulp always; 100 and above (below 2^64), 0 and some numbers below 2^-8 are undefined behaviour, 0.05 with %.1f prints 0.0 (refuted). Below 2^-8, whenever the conversion does not overrun its arrays: right layout, within 0.55 units of the last place, correctly rounded unless within 1/20 of a tie it does not hit; 2^-41 with %.13f prints 4e-13 for 4.547e-13 (refuted)."
  },
  {
   "property": "C85",
   "status": "proved",
   "theorems": [
    "C85_fseek",
    "C85_tell_then_seek",
    "C85_getpos_setpos",
    "C85_rewind"
   ],
   "note": ""
  },
  {
   "property": "C86",
   "status": "partial",
   "theorems": [
    "C86_ftell_clears_eof_refuted",
    "C86_ftell_moves_append_stream_refuted",
    "C86_failed_seek_drops_pushback_refuted",
    "C86_failed_seek_moves_refuted",
    "C86_ftell_partial",
    "C86_failed_seek_partial"
   ],
   "note": "ftell clears end-of-file and moves an append stream; a failing fseek drops pushed-back characters, and moves the stream when the position exceeds a long (all refuted)."
  },
  {
   "property": "C87",
   "status": "proved",
   "theorems": [
    "C87_output_calls"
   ],
   "note": ""
  },
  {
   "property": "C88",
   "status": "partial",
   "theorems": [
    "C88_output_failures_partial",
    "C88_puts_refuted",
    "C88_puts_partial"
   ],
   "note": "puts ignores a failure to write the string itself (refuted); proved for the other calls."
  },
  {
   "property": "C89",
   "status": "partial",
   "theorems": [
    "C89_ungetc_result_refuted",
    "C89_ungetc_result_partial"
   ],
   "note": "Refuted for arguments outside 0..255, proved within."
  },
  {
   "property": "C90",
   "status": "proved",
   "theorems": [
    "C90_numbers"
   ],
   "note": ""
  },
  {
   "property": "C91",
   "status": "proved",
   "theorems": [
    "C91_string",
    "C91_set",
    "C91_chars"
   ],
   "note": ""
  },
  {
   "property": "C92",
   "status": "partial",
   "theorems": [
    "C92_count_partial",
    "C92_percent_refuted"
   ],
   "note": "%n proved after any number of %d; %% fetches an argument (refuted)."
  },
  {
   "property": "C93",
   "status": "proved",
   "theorems": [
    "C93_rint",
    "C93_rintf",
    "C93_lrint",
    "C93_lrintf",
    "C93_rint_instruction"
   ],
   "note": ""
  },
  {
   "property": "C94",
   "status": "proved",
   "theorems": [
    "C94_modf",
    "C94_modff"
   ],
   "note": ""
  },
  {
   "property": "C95",
   "status": "proved",
   "theorems": [
    "C95_wcslen",
    "C95_wcscmp",
    "C95_wcsncmp",
    "C95_wmemcmp",
    "C95_wcschr",
    "C95_wcsrchr",
    "C95_wmemchr",
    "C95_wcsspn",
    "C95_wcsstr"
   ],
   "note": ""
  },
  {
   "property": "C96",
   "status": "proved",
   "theorems": [
    "C96_wcscpy",
    "C96_wcscat",
    "C96_wcsncpy",
    "C96_wcsncat",
    "C96_wmemset",
    "C96_wmemcpy",
    "C96_wmemmove",
    "C96_wcsxfrm"
   ],
   "note": ""
  },
  {
   "property": "C97",
   "status": "proved",
   "theorems": [
    "C97_call",
    "C97_tokens"
   ],
   "note": ""
  },
  {
   "property": "C98",
   "status": "partial",
   "theorems": [
    "C98_wcstol_partial",
    "C98_wcstoll_partial",
    "C98_wcstoul_partial",
    "C98_wcstoull_partial",
    "C98_imax_partial",
    "C98_long_refuted",
    "C98_wcstod_decimal_partial",
    "C98_wcstof_decimal_partial",
    "C98_wcstod_hex_partial",
    "C98_wcstof_hex_partial"
   ],
   "note": "Proved for integers ending within 127 and floating constants (of the C78 domain) ending within 255 characters; longer ones are cut off (refuted)."
  },
  {
   "property": "C99",
   "status": "partial",
   "theorems": [
    "C99_fgetwc",
    "C99_input_calls_follow_the_reference_stream",
    "C99_fputwc",
    "C99_fputws",
    "C99_roundtrip",
    "C99_orientation",
    "C99_truncated_character_refuted",
    "C99_read_error_refuted",
    "C99_reposition_refuted",
    "C99_byte_orientation_refuted"
   ],
   "note": "Character-level input and output proved at full strength for delivering hosts (fputwc for every host). Refuted: a character cut off by the end of the file does not set the error indicator, a read error also sets the end-of-file indicator, rewind keeps the character pushed back by ungetwc, and the byte functions leave the stream unoriented."
  },
  {
   "property": "C100",
   "status": "partial",
   "theorems": [
    "C100_swprintf_partial",
    "C100_cut_partial",
    "C100_swprintf_failure",
    "C100_empty_array",
    "C100_fwprintf_partial",
    "C100_bad_format",
    "C100_truncation_refuted",
    "C100_count_refuted",
    "C100_precision_refuted"
   ],
   "note": "Proved when the text fits (and how it is cut otherwise); refuted: swprintf returns the truncated count instead of a negative value, fwprintf counts bytes, precisions count bytes."
  },
  {
   "property": "C101",
   "status": "partial",
   "theorems": [
    "C101_swscanf_transcodes",
    "C101_swscanf_numbers",
    "C101_bad_input",
    "C101_wide_string_refuted",
    "C101_count_refuted"
   ],
   "note": "Numbers and the reduction to sscanf proved; refuted: %ls stores bytes, %n counts bytes. vfwscanf is not modelled."
  },
  {
   "property": "C102",
   "status": "proved",
   "theorems": [
    "C102_remove",
    "C102_rename",
    "C102_stat",
    "C102_fstat",
    "C102_nowhere"
   ],
   "note": ""
  },
  {
   "property": "C103",
   "status": "proved",
   "theorems": [
    "C103_no_leak_no_double_close",
    "C103_defined"
   ],
   "note": "malloc never fails here; see C104 for the failure."
  },
  {
   "property": "C104",
   "status": "partial",
   "theorems": [
    "C104_fopen_partial",
    "C104_fclose_partial",
    "C104_fclose_errno_refuted",
    "C104_fclose_static_refuted",
    "C104_freopen_static_refuted",
    "C104_fopen_no_memory_refuted"
   ],
   "note": "Refuted: fclose and failed freopen of a standard stream free a static object; errno after a failed fclose is EPERM; fopen without memory stores through a null pointer.  Proved: the rest."
  },
  {
   "property": "C105",
   "status": "proved",
   "theorems": [
    "C105_hypotf",
    "C105_hypotf_infinite",
    "C105_hypotf_nan"
   ],
   "note": ""
  },
  {
   "property": "C106",
   "status": "partial",
   "theorems": [
    "C106_expf_nearly_rounded",
    "C106_expf_faithful",
    "C106_expf_correctly_rounded",
    "C106_expf_infinities",
    "C106_expf_nan_refuted"
   ],
   "note": "Accuracy, faithfulness and infinities proved for all finite arguments; refuted for NaN, which is converted to int64_t (undefined)."
  },
  {
   "property": "C107",
   "status": "partial",
   "theorems": [
    "C107_exp2f_nearly_rounded",
    "C107_exp2f_faithful",
    "C107_exp2f_correctly_rounded",
    "C107_exp2f_exact_powers",
    "C107_exp2f_infinities",
    "C107_exp2f_nan_refuted"
   ],
   "note": "Accuracy, faithfulness, exact powers and infinities proved; refuted for NaN, which is converted to int64_t (undefined)."
  },
  {
   "property": "C108",
   "status": "proved",
   "theorems": [
    "C108_logf_nearly_rounded",
    "C108_logf_faithful",
    "C108_logf_correctly_rounded",
    "C108_logf_special"
   ],
   "note": ""
  },
  {
   "property": "C109",
   "status": "proved",
   "theorems": [
    "C109_log2f_nearly_rounded",
    "C109_log2f_faithful",
    "C109_log2f_correctly_rounded",
    "C109_log2f_exact_powers",
    "C109_log2f_special"
   ],
   "note": ""
  },
  {
   "property": "C110",
   "status": "proved",
   "theorems": [
    "C110_log10f_nearly_rounded",
    "C110_log10f_faithful",
    "C110_log10f_correctly_rounded",
    "C110_log10f_exact_powers",
    "C110_log10f_special"
   ],
   "note": ""
  },
  {
   "property": "C111",
   "status": "proved",
   "theorems": [
    "C111_log1pf_nearly_rounded",
    "C111_log1pf_faithful",
    "C111_log1pf_correctly_rounded",
    "C111_log1pf_special"
   ],
   "note": ""
  },
  {
   "property": "C112",
   "status": "proved",
   "theorems": [
    "C112_atanhf_nearly_rounded",
    "C112_atanhf_domain",
    "C112_atanhf_faithful",
    "C112_atanhf_correctly_rounded",
    "C112_atanhf_special"
   ],
   "note": ""
  },
  {
   "property": "C113",
   "status": "proved",
   "theorems": [
    "C113_asinhf_nearly_rounded",
    "C113_asinhf_domain",
    "C113_asinhf_faithful",
    "C113_asinhf_correctly_rounded",
    "C113_asinhf_special"
   ],
   "note": ""
  },
  {
   "property": "C114",
   "status": "proved",
   "theorems": [
    "C114_acoshf_nearly_rounded",
    "C114_acoshf_domain",
    "C114_acoshf_faithful",
    "C114_acoshf_correctly_rounded",
    "C114_acoshf_special"
   ],
   "note": ""
  },
  {
   "property": "C115",
   "status": "partial",
   "theorems": [
    "C115_expm1f_nearly_rounded",
    "C115_expm1f_faithful",
    "C115_expm1f_correctly_rounded",
    "C115_expm1f_special",
    "C115_expm1f_nan_refuted"
   ],
   "note": "Accuracy, faithfulness, zeros and infinities proved for all finite arguments; refuted for NaN, which is converted to int64_t (undefined)."
  },
  {
   "property": "C116",
   "status": "partial",
   "theorems": [
    "C116_coshf_nearly_rounded",
    "C116_coshf_faithful",
    "C116_coshf_correctly_rounded",
    "C116_coshf_special",
    "C116_coshf_nan_refuted"
   ],
   "note": "Accuracy, faithfulness, zeros and infinities proved for all finite arguments; refuted for NaN, which is converted to int64_t (undefined)."
  },
  {
   "property": "C117",
   "status": "partial",
   "theorems": [
    "C117_sinhf_nearly_rounded",
    "C117_sinhf_faithful",
    "C117_sinhf_correctly_rounded",
    "C117_sinhf_special",
    "C117_sinhf_nan_refuted"
   ],
   "note": "Accuracy, faithfulness, zeros and infinities proved for all finite arguments; refuted for NaN, which is converted to int64_t (undefined)."
  },
  {
   "property": "C118",
   "status": "partial",
   "theorems": [
    "C118_tanhf_nearly_rounded",
    "C118_tanhf_faithful",
    "C118_tanhf_correctly_rounded",
    "C118_tanhf_special",
    "C118_tanhf_nan_refuted"
   ],
   "note": "Accuracy, faithfulness, zeros and infinities proved for all finite arguments; refuted for NaN, which is converted to int64_t (undefined)."
  },
  {
   "property": "C119",
   "status": "proved",
   "theorems": [
    "C119_cbrtf_nearly_rounded",
    "C119_cbrtf_faithful",
    "C119_cbrtf_correctly_rounded",
    "C119_cbrtf_exact",
    "C119_cbrtf_special"
   ],
   "note": ""
  },
  {
   "property": "C120",
   "status": "proved",
   "theorems": [
    "C120_atanf_nearly_rounded",
    "C120_atanf_faithful",
    "C120_atanf_correctly_rounded",
    "C120_atanf_special",
    "C120_atanf_nan"
   ],
   "note": ""
  },
  {
   "property": "C121",
   "status": "proved",
   "theorems": [
    "C121_asinf_nearly_rounded",
    "C121_asinf_faithful",
    "C121_asinf_correctly_rounded",
    "C121_asinf_special",
    "C121_asinf_domain"
   ],
   "note": ""
  },
  {
   "property": "C122",
   "status": "proved",
   "theorems": [
    "C122_acosf_nearly_rounded",
    "C122_acosf_faithful",
    "C122_acosf_correctly_rounded",
    "C122_acosf_special",
    "C122_acosf_domain"
   ],
   "note": ""
  },
  {
   "property": "C123",
   "status": "proved",
   "theorems": [
    "C123_sinf_nearly_rounded",
    "C123_sinf_faithful",
    "C123_sinf_correctly_rounded",
    "C123_sinf_special",
    "C123_sinf_nan"
   ],
   "note": ""
  },
  {
   "property": "C124",
   "status": "proved",
   "theorems": [
    "C124_cosf_nearly_rounded",
    "C124_cosf_faithful",
    "C124_cosf_correctly_rounded",
    "C124_cosf_special",
    "C124_cosf_nan"
   ],
   "note": ""
  },
  {
   "property": "C125",
   "status": "proved",
   "theorems": [
    "C125_tanf_nearly_rounded",
    "C125_tanf_faithful",
    "C125_tanf_correctly_rounded",
    "C125_tanf_special",
    "C125_tanf_nan"
   ],
   "note": ""
  },
  {
   "property": "C126",
   "status": "proved",
   "theorems": [
    "C126_setvbuf"
   ],
   "note": ""
  },
  {
   "property": "C127",
   "status": "proved",
   "theorems": [
    "C127_product_infinite",
    "C127_product_finite",
    "C127_product_nan",
    "C127_product_overflow"
   ],
   "note": ""
  },
  {
   "property": "C128",
   "status": "proved",
   "theorems": [
    "C128_quotient_accurate"
   ],
   "note": ""
  },
  {
   "property": "C129",
   "status": "partial",
   "theorems": [
    "C129_quotient_infinite",
    "C129_quotient_zero_partial",
    "C129_quotient_zero_refuted"
   ],
   "note": "Infinite results proved in full. Finite over infinite proved to be a zero unless both parts of the divisor are infinite and |a| + |b| overflows; refuted there: FLT_MAX (1 + i) / (inf + inf i) has a NaN part."
  },
  {
   "property": "C130",
   "status": "partial",
   "theorems": [
    "C130_powidf2_accurate",
    "C130_powisf2_accurate",
    "C130_powi_total",
    "C130_int_min_refuted"
   ],
   "note": "Accuracy, n = 0 and termination proved for every int but INT_MIN; refuted for INT_MIN, whose negation overflows (undefined)."
  },
  {
   "property": "C131",
   "status": "partial",
   "theorems": [
    "C131_csqrt_accurate",
    "C131_csqrt_overflow_refuted",
    "C131_csqrt_underflow_refuted",
    "C131_csqrt_special"
   ],
   "note": "Accuracy for parts of size 2^-480 to 2^298 and all Annex G cases proved; refuted for the full range: the squares are not scaled, so csqrt(2^600) is infinite and csqrt(2^-600) is off by a factor sqrt 2."
  },
  {
   "property": "C132",
   "status": "proved",
   "theorems": [
    "C132_asprintf_text",
    "C132_asprintf_failure",
    "C132_asprintf_safe"
   ],
   "note": ""
  },
  {
   "property": "C133",
   "status": "partial",
   "theorems": [
    "C133_quotient_accurate",
    "C133_overflow_refuted",
    "C133_underflow_refuted"
   ],
   "note": "Accuracy proved for every finite nonzero divisor when the modulus of the dividend is in [2^-900, 2^590] and that of the quotient in [2^-1000, 2^1000]. Refuted outside: the products with the scaled divisor overflow for 1.5 2^1023 (1 + i) / (1.5 (1 - i)), and 2^-1074 / (3 2^-1074) gives 1/2. Dividends between these ranges and the witnesses are open."
  },
  {
   "property": "C134",
   "status": "partial",
   "theorems": [
    "C134_quotient_infinite",
    "C134_quotient_zero_partial",
    "C134_quotient_zero_refuted"
   ],
   "note": "Infinite results proved in full. Finite over infinite proved to be a zero unless both parts of the divisor are infinite and |a| + |b| overflows; refuted there: DBL_MAX (1 + i) / (inf + inf i) has a NaN part."
  },
  {
   "property": "C135",
   "status": "partial",
   "theorems": [
    "C135_strerror_text",
    "C135_strerror_distinct",
    "C135_strerror_unknown",
    "C135_strerror_refuted"
   ],
   "note": "Text, and distinctness for the codes the switch lists, proved for all ints. Refuted for all codes of errno.h: 80 of them, ENOTBLK and ENOMSG for example, share the default message."
  },
  {
   "property": "C136",
   "status": "proved",
   "theorems": [
    "C136_perror"
   ],
   "note": ""
  }
 ]
}