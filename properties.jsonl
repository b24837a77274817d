{"id": "C01", "title": "Character classification is exactly the ASCII table", "statement": "isalnum, isalpha, isblank, iscntrl, isdigit, isgraph, islower, isprint, ispunct, isspace, isupper and isxdigit return nonzero exactly for the characters the C locale (ASCII) puts in that class, and zero for every other int argument they are defined for: every int except the lowest 97 (below INT_MIN+97, where the code's subtraction overflows), so in particular EOF, 0..255 and every huge or ordinary negative value.", "quantifier": "every 32-bit int argument and every one of the twelve predicates", "why_tests_cant": "the predicates use unsigned wrap-around range tricks over 2^32 arguments; tests sample 0..255", "anchors": ["src/ctype/*.c", "include/ctype.h"]}
{"id": "C02", "title": "Case mapping", "statement": "tolower maps 'A'..'Z' to 'a'..'z' and is the identity on every other int; toupper is the reverse; each is idempotent and they invert each other on letters.", "quantifier": "every 32-bit int argument", "why_tests_cant": "2^32 arguments", "anchors": ["src/ctype/tolower.c", "src/ctype/toupper.c"]}
{"id": "C03", "title": "Wide classification agrees with its property tokens", "statement": "iswctype(c, wctype(name)) is nonzero exactly when the corresponding isw<name>(c) is, for each of the twelve standard names; wctype returns 0 for any other name; towctrans(c, wctrans(name)) applies towlower/towupper.", "quantifier": "every wint_t value and every name string", "why_tests_cant": "2^32 code points times an unbounded set of names", "anchors": ["src/wctype/*.c"]}
{"id": "C04", "title": "UTF-8 round trip of wcrtomb and mbrtowc", "statement": "For every Unicode scalar value c, wcrtomb writes its unique UTF-8 encoding and returns its length (1..4); mbrtowc on those bytes, given at least that many, stores c and returns the same length (0 for c = 0), leaving the state initial.", "quantifier": "every Unicode scalar value and every suffix of following bytes", "why_tests_cant": "1.1 million code points with arbitrary following data", "anchors": ["src/wchar/wcrtomb.c", "src/wchar/mbrtowc.c"]}
{"id": "C05", "title": "mbrtowc accepts exactly well-formed UTF-8", "statement": "From the initial state mbrtowc(s,n) decodes iff some prefix of the n bytes is a well-formed UTF-8 sequence (Unicode Table 3-7: no overlong forms, no surrogates, nothing above U+10FFFF); it returns (size_t)-2 iff the n bytes are a proper prefix of a well-formed sequence, and (size_t)-1 with EILSEQ otherwise.", "quantifier": "every byte string and every n", "why_tests_cant": "the space of byte strings is unbounded; tests use a few malformed strings", "anchors": ["src/wchar/mbrtowc.c"]}
{"id": "C06", "title": "Restartable decoding is independent of chunking", "statement": "Feeding a byte string to mbrtowc in any sequence of chunks (returning (size_t)-2 on incomplete ones and continuing with the same mbstate_t) yields the same wide character and total byte count as one call on the whole string.", "quantifier": "every byte string and every way of cutting it into chunks", "why_tests_cant": "exponentially many chunkings", "anchors": ["src/wchar/mbrtowc.c", "include/bits/types/mbstate.h"]}
{"id": "C07", "title": "wcrtomb rejects what is not a scalar value", "statement": "wcrtomb returns (size_t)-1 with EILSEQ and writes nothing exactly for surrogate code points and values outside 0..0x10FFFF.", "quantifier": "every 32-bit wchar_t value", "why_tests_cant": "2^32 values", "anchors": ["src/wchar/wcrtomb.c"]}
{"id": "C08", "title": "String conversions mbsrtowcs / wcsrtombs", "statement": "Converting a wide string of scalar values to multibyte and back gives the same string; with a destination limit the functions never write beyond it, stop at a character boundary and report the source position; with a null destination they return the length needed.", "quantifier": "every wide string, every destination size", "why_tests_cant": "unbounded strings and sizes", "anchors": ["src/wchar/mbsrtowcs.c", "src/wchar/wcsrtombs.c"]}
{"id": "C09", "title": "UTF-16 conversions mbrtoc16 / c16rtomb", "statement": "For every scalar value, mbrtoc16 produces its one or two UTF-16 code units and c16rtomb turns those units back into the same UTF-8 bytes; a low surrogate without a high one, and a high surrogate not followed by a low one, are rejected with EILSEQ.", "quantifier": "every scalar value and every sequence of char16_t units", "why_tests_cant": "all unit sequences including ill-formed", "anchors": ["src/uchar/mbrtoc16.c", "src/uchar/c16rtomb.c"]}
{"id": "C10", "title": "128-bit shifts", "statement": "The 128-bit shift helpers compute x << n, x >> n (logical) and x >> n (arithmetic) modulo 2^128, and perform no undefined 64-bit shift, for every shift count 0..127.", "quantifier": "every 128-bit x and every n in 0..127", "why_tests_cant": "2^135 inputs", "anchors": ["src/soft/integer/ashlti3.c", "src/soft/integer/ashrti3.c", "src/soft/integer/lshrti3.c"]}
{"id": "C11", "title": "128-bit multiplication", "statement": "128-bit multiplication equals the product modulo 2^128 for signed and unsigned operands; the widening helpers return the exact 128-bit and 256-bit products.", "quantifier": "every pair of 64-/128-bit operands", "why_tests_cant": "2^256 inputs", "anchors": ["src/soft/integer/multi3.c", "src/soft/integer/umulditi3.h", "src/soft/integer/umulti4.h"]}
{"id": "C12", "title": "128-bit unsigned division", "statement": "For every a and every b != 0, unsigned 128-bit division and remainder return q and r with a = q*b + r and 0 <= r < b; no intermediate step divides by zero or over-shifts.", "quantifier": "every pair of 128-bit operands with nonzero divisor", "why_tests_cant": "2^256 inputs; the quotient-correction step is hit with probability about 2^-32", "anchors": ["src/soft/integer/udivmodti4.c", "src/soft/integer/udivti3.c", "src/soft/integer/umodti3.c"]}
{"id": "C13", "title": "128-bit signed division truncates toward zero", "statement": "Signed 128-bit division and remainder truncate toward zero with the remainder taking the dividend's sign, for every divisor except 0 and the overflowing INT128_MIN / -1.", "quantifier": "every pair of signed 128-bit operands", "why_tests_cant": "2^256 inputs", "anchors": ["src/soft/integer/divti3.c", "src/soft/integer/modti3.c"]}
{"id": "C14", "title": "128-bit integer to float/double is correctly rounded", "statement": "Conversion of a signed or unsigned 128-bit integer to double and to float returns the IEEE round-to-nearest-even value (infinity on overflow of float).", "quantifier": "every 128-bit integer", "why_tests_cant": "2^128 inputs; ties and double rounding are rare", "anchors": ["src/soft/integer/floattidf.c", "src/soft/integer/floattisf.c", "src/soft/integer/floatuntidf.c", "src/soft/integer/floatuntisf.c"]}
{"id": "C15", "title": "float/double to 128-bit integer truncates", "statement": "Conversion of a double or float to a signed/unsigned 128-bit integer truncates toward zero for every value whose truncation is representable.", "quantifier": "every double and float", "why_tests_cant": "2^64 inputs", "anchors": ["src/soft/integer/fixdfti.c", "src/soft/integer/fixsfti.c", "src/soft/integer/fixunsdfti.c", "src/soft/integer/fixunssfti.c"]}
{"id": "C16", "title": "long double comparisons", "statement": "==, !=, <, <=, >, >= and unordered on binary128 long double implement the IEEE order: NaN is unordered with everything, -0 equals +0, and otherwise the real-number order.", "quantifier": "every pair of 128-bit patterns", "why_tests_cant": "2^256 inputs", "anchors": ["src/soft/float/cmptf2.c", "src/soft/float/eqtf2.c", "src/soft/float/unordtf2.c"]}
{"id": "C17", "title": "float/double to long double is exact", "statement": "Widening float and double to binary128 preserves the value, sign, infinities and NaN-ness for every input including subnormals.", "quantifier": "every float and double", "why_tests_cant": "2^64 inputs", "anchors": ["src/soft/float/extenddftf2.c", "src/soft/float/extendsftf2.c"]}
{"id": "C18", "title": "long double to double/float is correctly rounded", "statement": "Narrowing binary128 to double and float gives the round-to-nearest-even value, including subnormal results, overflow to infinity and NaN.", "quantifier": "every binary128 value", "why_tests_cant": "2^128 inputs; rounding ties are rare", "anchors": ["src/soft/float/trunctfdf2.c", "src/soft/float/trunctfsf2.c"]}
{"id": "C19", "title": "integer to long double is correctly rounded", "statement": "32-, 64- and 128-bit signed/unsigned integers convert to binary128 exactly, or round-to-nearest-even when more than 113 bits are needed.", "quantifier": "every integer of each width", "why_tests_cant": "2^128 inputs", "anchors": ["src/soft/float/floatsitf.c", "src/soft/float/floatditf.c", "src/soft/float/floattitf.c", "src/soft/float/floatunsitf.c"]}
{"id": "C20", "title": "long double to integer truncates", "statement": "binary128 to 32-/64-/128-bit integers truncates toward zero whenever the result is representable.", "quantifier": "every binary128 value in range", "why_tests_cant": "2^128 inputs", "anchors": ["src/soft/float/fixtfsi.c", "src/soft/float/fixtfdi.c", "src/soft/float/fixunstfsi.c"]}
{"id": "C21", "title": "long double multiplication is IEEE correctly rounded", "statement": "The product of two binary128 values is the round-to-nearest-even value of the exact product with IEEE zeros, infinities, NaN, subnormals and overflow.", "quantifier": "every pair of binary128 values", "why_tests_cant": "2^256 inputs", "anchors": ["src/soft/float/multf3.c"]}
{"id": "C22", "title": "long double addition and subtraction are IEEE correctly rounded", "statement": "The sum/difference of two binary128 values is the round-to-nearest-even value of the exact result with IEEE special cases, and the computation has no undefined shift.", "quantifier": "every pair of binary128 values", "why_tests_cant": "2^256 inputs", "anchors": ["src/soft/float/addtf3.c: __addtf3, __subtf3"]}
{"id": "C23", "title": "long double division is IEEE correctly rounded", "statement": "The quotient of two binary128 values is the round-to-nearest-even value of the exact quotient with IEEE special cases.", "quantifier": "every pair of binary128 values", "why_tests_cant": "2^256 inputs", "anchors": ["src/soft/float/divtf3.c"]}
{"id": "C24", "title": "strlen", "statement": "For every NUL-terminated string in memory, at every address alignment, strlen returns the number of bytes before the first NUL and reads no 8-byte word that does not contain a byte of the string or its terminator.", "quantifier": "every memory content, every alignment, every length", "why_tests_cant": "8 alignments times unbounded byte patterns; the word test depends on exact carry propagation", "anchors": ["src/string/strlen.c"]}
{"id": "C25", "title": "memchr, strchr, strrchr find the right occurrence", "statement": "memchr returns the first occurrence of the byte in the first n bytes or NULL, strchr the first occurrence in the string (counting the terminator), strrchr the last; none reads past the data the standard allows (up to word alignment).", "quantifier": "every memory content, alignment, length and searched byte", "why_tests_cant": "unbounded patterns; alignment prologue boundary cases", "anchors": ["src/string/memchr.c", "src/string/strchr.c", "src/string/strrchr.c"]}
{"id": "C26", "title": "memcpy and memmove copy faithfully", "statement": "After memcpy (non-overlapping) and memmove (arbitrary overlap) the destination holds the original source bytes, every other byte of memory is unchanged, and the destination is returned.", "quantifier": "every memory content, pair of addresses, overlap and size", "why_tests_cant": "unbounded combinations of size, alignment and overlap distance", "anchors": ["src/string/memcpy.c", "src/string/memmove.c"]}
{"id": "C27", "title": "memset", "statement": "memset(p,c,n) sets exactly the n bytes at p to (unsigned char)c, touches no other byte, and returns p.", "quantifier": "every address, alignment, byte and size", "why_tests_cant": "sizes and alignments are unbounded; small sizes at odd addresses", "anchors": ["src/string/memset.c"]}
{"id": "C28", "title": "memcmp, strcmp, strncmp order", "statement": "The sign of memcmp/strcmp/strncmp is the sign of the first differing unsigned byte (zero iff equal over the compared range); strncmp looks at no byte past n or past the terminator; strcmp is a total order on strings.", "quantifier": "every pair of strings, every n", "why_tests_cant": "unbounded strings; bytes above 127", "anchors": ["src/string/memcmp.c", "src/string/strcmp.c", "src/string/strncmp.c"]}
{"id": "C29", "title": "strcpy, strncpy, strcat, strncat", "statement": "strcpy/strcat produce the C-string result and write exactly strlen+1 bytes; strncpy writes exactly n bytes, padding with NUL; strncat appends at most n characters and always terminates the result.", "quantifier": "every pair of strings, every n, every alignment", "why_tests_cant": "unbounded strings and sizes", "anchors": ["src/string/strcpy.c", "src/string/strncpy.c", "src/string/strcat.c", "src/string/strncat.c"]}
{"id": "C30", "title": "strspn, strcspn, strpbrk", "statement": "strspn/strcspn return the length of the longest initial segment of bytes inside/outside the set; strpbrk returns the first byte of the set or NULL.", "quantifier": "every pair of strings", "why_tests_cant": "unbounded strings over 256 byte values", "anchors": ["src/string/strspn.c", "src/string/strcspn.c", "src/string/strpbrk.c"]}
{"id": "C31", "title": "strtok_r tokenisation", "statement": "Repeated calls to strtok_r return exactly the maximal runs of non-delimiter bytes of the original string, in order, each NUL-terminated in place, then NULL; only delimiter bytes ending tokens are overwritten.", "quantifier": "every string, every delimiter set (may change per call), every number of calls", "why_tests_cant": "unbounded histories of calls", "anchors": ["src/string/strtok.c: strtok_r, strtok"]}
{"id": "C32", "title": "strstr / memmem find the first occurrence", "statement": "strstr(h,n) and memmem return the first occurrence of the needle in the haystack, or NULL if and only if there is none.", "quantifier": "every haystack and needle", "why_tests_cant": "two-way matching is wrong only on needles with special factorizations", "anchors": ["src/string/strstr.c: strstr, memmem, factorize_"]}
{"id": "C33", "title": "strxfrm", "statement": "strxfrm returns strlen(src); when the result fits in n it copies the string so that strcmp of transforms equals strcoll of originals; it never writes more than n bytes.", "quantifier": "every string and every n", "why_tests_cant": "unbounded", "anchors": ["src/string/strxfrm.c", "src/string/strcoll.c"]}
{"id": "C34", "title": "strtol family", "statement": "strtol, strtoul, strtoll, strtoull skip white space, accept an optional sign, an optional 0x/0 prefix per base, consume the longest valid digit run, return the exact value, set *endptr just past it (or to the start when no digits), and clamp to the type's limits with ERANGE exactly on overflow; no signed overflow occurs.", "quantifier": "every input string, every base 0 or 2..36", "why_tests_cant": "unbounded strings; boundary digits near 2^31, 2^32, 2^63, 2^64", "anchors": ["src/stdlib/parse/integer.h", "src/stdlib/strtol.c", "src/stdlib/strtoul.c", "src/stdlib/strtoll.c", "src/stdlib/strtoull.c"]}
{"id": "C35", "title": "atoi family", "statement": "atoi/atol/atoll return the decimal value of the leading integer whenever it is representable.", "quantifier": "every string whose value fits", "why_tests_cant": "unbounded strings", "anchors": ["src/stdlib/atoi.c", "src/stdlib/atol.c", "src/stdlib/atoll.c"]}
{"id": "C36", "title": "qsort sorts", "statement": "For every comparator that is a total preorder, qsort terminates, leaves the array a permutation of its input, sorted by the comparator, and touches nothing outside the array (for arrays of fewer than 2^31 elements that do not start below address sizeof(element)).", "quantifier": "every array, every element count, every total preorder", "why_tests_cant": "unbounded arrays; the heapsort fallback is reached only on adversarial inputs", "anchors": ["src/stdlib/qsort.c"]}
{"id": "C37", "title": "bsearch finds an element iff one is present", "statement": "On a sorted array bsearch terminates and returns an element comparing equal to the key iff one exists, else NULL, calling the comparator only on elements of the array.", "quantifier": "every sorted array, every count, every key", "why_tests_cant": "unbounded arrays; absent keys above the maximum", "anchors": ["src/stdlib/bsearch.c"]}
{"id": "C38", "title": "exit handlers run in reverse order, exactly once", "statement": "exit runs every function registered with atexit exactly once, in reverse order of registration, including those registered by running handlers, then terminates with the given status; quick_exit does the same for at_quick_exit only; registration fails (nonzero) only when the table is full.", "quantifier": "every history of registrations, every set of handlers", "why_tests_cant": "unbounded histories, re-entrancy", "anchors": ["src/stdlib/atexit.c", "src/stdlib/exit.c", "src/stdlib/quick_exit.c: at_quick_exit, quick_exit"]}
{"id": "C39", "title": "returning from main equals calling exit", "statement": "Returning status r from main has the same observable effects as calling exit(r): registered atexit handlers run before termination.", "quantifier": "every history of registrations", "why_tests_cant": "every program history", "anchors": ["src/crt/crt1.c", "src/stdlib/exit.c"]}
{"id": "C40", "title": "getenv", "statement": "getenv(name) returns the value of the first environment entry of the form name=value, and NULL when no entry has exactly that name (a proper prefix of a name never matches).", "quantifier": "every environment block and every name", "why_tests_cant": "unbounded environments", "anchors": ["src/stdlib/getenv.c"]}
{"id": "C41", "title": "rand / srand reproducibility and range", "statement": "rand returns values in 0..RAND_MAX for every seed and every number of calls, and equal seeds give equal sequences.", "quantifier": "every seed, every number of calls", "why_tests_cant": "sequence of unbounded length, 2^32 seeds", "anchors": ["src/stdlib/rand.c: rand, srand"]}
{"id": "C42", "title": "abs and div families", "statement": "abs/labs/llabs return |x| and div/ldiv/lldiv return the truncated quotient and remainder whenever the result is representable; the only undefined inputs are the minimum value for abs, zero divisors and MIN/-1.", "quantifier": "every integer of each width", "why_tests_cant": "2^64 inputs", "anchors": ["src/stdlib/abs.c", "src/stdlib/div.c", "src/stdlib/lldiv.c"]}
{"id": "C43", "title": "gmtime yields the proleptic Gregorian date", "statement": "For every time_t whose calendar year Y and whose tm_year = Y - 1900 both fit in int, gmtime returns the unique broken-down UTC time: fields in range, correct leap years, weekday and day of year, for dates before and after 1970.", "quantifier": "every time_t in range", "why_tests_cant": "2^64 inputs; leap-century boundaries", "anchors": ["src/time/gmtime.c"]}
{"id": "C44", "title": "mktime inverts gmtime and normalises", "statement": "mktime(gmtime(t)) = t for every t in range, and for any broken-down time mktime returns the seconds of the proleptic Gregorian instant obtained by letting out-of-range fields carry.", "quantifier": "every t and every struct tm with out-of-range fields", "why_tests_cant": "unbounded carries of each field, including zero and negative", "anchors": ["src/time/mktime.c"]}
{"id": "C45", "title": "strftime never overruns its buffer", "statement": "strftime writes at most maxsize bytes including the terminator, returns the number of characters written when everything fits and 0 otherwise, for every format string.", "quantifier": "every format, every maxsize, every struct tm in range", "why_tests_cant": "unbounded formats", "anchors": ["src/time/strftime.c"]}
{"id": "C46", "title": "asctime", "statement": "asctime of an in-range struct tm with a four-digit year (1000 to 9999, as the standard requires) is exactly the 26-byte \"Www Mmm dd hh:mm:ss yyyy\\n\" string.", "quantifier": "every in-range struct tm", "why_tests_cant": "combinatorially many dates", "anchors": ["src/time/asctime.c"]}
{"id": "C47", "title": "snprintf truncates safely and reports the full length", "statement": "snprintf/vsnprintf with size n writes at most n bytes, NUL-terminates when n > 0, stores the first min(n-1, total) bytes of the full output and returns the total length, whatever pieces the formatter emits.", "quantifier": "every sequence of output pieces and every size", "why_tests_cant": "unbounded outputs and sizes", "anchors": ["src/stdio/vsnprintf.c", "src/stdio/vsprintf.c"]}
{"id": "C48", "title": "printf %d/%i formatting", "statement": "%d prints the decimal value with the sign, width, precision and flag semantics of the C standard for every argument and every flags/width/precision combination; parsing the digits gives the argument back.", "quantifier": "every intmax_t, every flags, width, precision", "why_tests_cant": "2^64 values times unbounded widths", "anchors": ["src/stdio/vfprintf.c"]}
{"id": "C49", "title": "printf %u/%o/%x/%X formatting", "statement": "Unsigned conversions print the value in base 10/8/16 with the standard's width, precision, '#', '0' and '-' semantics.", "quantifier": "every uintmax_t, every flags, width, precision", "why_tests_cant": "2^64 values times unbounded widths", "anchors": ["src/stdio/vfprintf.c"]}
{"id": "C50", "title": "printf number conversion stays inside its buffers", "statement": "Converting any integer argument writes only inside the conversion's local digit buffer.", "quantifier": "every integer argument of every conversion", "why_tests_cant": "tests cannot observe an in-frame stack overflow", "anchors": ["src/stdio/vfprintf.c"]}
{"id": "C51", "title": "printf %s honours precision without over-reading", "statement": "%s prints the bytes up to the first NUL or the precision, whichever is first, and reads no byte beyond (up to word alignment).", "quantifier": "every string, alignment and precision", "why_tests_cant": "unbounded strings, 8 alignments", "anchors": ["src/stdio/vfprintf.c"]}
{"id": "C52", "title": "ungetc / getc pushback", "statement": "A character pushed back with ungetc is the next one read, the stream position is restored after reading it, and reads through getc and fread see pushed-back characters first.", "quantifier": "every sequence of getc/ungetc/fread calls", "why_tests_cant": "unbounded histories", "anchors": ["src/stdio/ungetc.c", "src/stdio/getc.h", "src/stdio/fread.c"]}
{"id": "C53", "title": "fread item counting", "statement": "fread/fwrite return the number of complete items transferred for every size and count (0 when either is zero), and set end-of-file only when the source is exhausted.", "quantifier": "every size, count and source behaviour (including short reads)", "why_tests_cant": "unbounded; depends on the host's short reads", "anchors": ["src/stdio/fread.c", "src/stdio/fwrite.c"]}
{"id": "C54", "title": "fgets line reading", "statement": "fgets stores at most n-1 characters up to and including the first newline, NUL-terminates, and returns NULL only at end of file with nothing read (the host reporting no error); successive calls return the lines in order with nothing lost.", "quantifier": "every stream content, every n >= 1 and every way the host splits its answers", "why_tests_cant": "unbounded content", "anchors": ["src/stdio/fgets.c"]}
{"id": "C55", "title": "getdelim / getline", "statement": "getdelim returns the bytes up to and including the delimiter (or the rest), NUL-terminated in a buffer of sufficient capacity that grows as needed, and -1 only at end of file, as long as memory can be allocated.", "quantifier": "every stream content with lines below 2^31 - 1 bytes, every initial capacity", "why_tests_cant": "unbounded content and growth steps", "anchors": ["src/stdio/getdelim.c"]}
{"id": "C56", "title": "fopen mode strings", "statement": "The mode string determines read/write/create/truncate/append/exclusive exactly as the standard's table; unrecognised modes are rejected.", "quantifier": "every mode string", "why_tests_cant": "unbounded strings", "anchors": ["src/stdio/fopen.c", "src/stdio/modeflags.h"]}
{"id": "C57", "title": "clearerr clears only the error and end-of-file indicators", "statement": "clearerr resets feof and ferror and leaves every other observable aspect of the stream (append mode, pushed-back characters, orientation) unchanged.", "quantifier": "every stream state", "why_tests_cant": "reachable state combinations", "anchors": ["src/stdio/clearerr.c"]}
{"id": "C58", "title": "scanf consumes exactly what it converts", "statement": "After fscanf returns, the next character read from the stream is the first one not consumed by a conversion.", "quantifier": "every format and stream content", "why_tests_cant": "unbounded", "anchors": ["src/stdio/vfscanf.c"]}
{"id": "C59", "title": "scanf integer conversion", "statement": "%d/%i/%u/%o/%x with a field width read at most width characters, consume the longest matching prefix and store the value strtoll/strtoull would give.", "quantifier": "every input and every width", "why_tests_cant": "unbounded", "anchors": ["src/stdio/vfscanf.c"]}
{"id": "C60", "title": "path resolution against preopened directories", "statement": "A path is resolved against a preopened directory only when that directory's name is a prefix of it at a component boundary, the longest such name wins, and the remaining relative path is what follows.", "quantifier": "every preopen table and every path", "why_tests_cant": "unbounded tables and paths", "anchors": ["src/wasi/*.c"]}
{"id": "C61", "title": "host error numbers map faithfully", "statement": "Every WASI error number is translated to the errno constant of the same meaning, zero to zero, and out-of-range numbers to a nonzero errno.", "quantifier": "every host error number", "why_tests_cant": "2^16 codes", "anchors": ["src/wasi/errno.h"]}
{"id": "C62", "title": "signal dispositions", "statement": "signal returns the previous disposition, raise runs the installed handler with the signal number, ignored signals do nothing, invalid numbers fail with EINVAL.", "quantifier": "every history of signal/raise calls", "why_tests_cant": "unbounded histories", "anchors": ["src/signal/signal.c", "src/signal/raise.c"]}
{"id": "C63", "title": "abort terminates the process", "statement": "abort (and raise(SIGABRT) with the default disposition) terminates the program abnormally, whatever handlers are installed.", "quantifier": "every state of the signal table", "why_tests_cant": "tests cannot observe non-termination", "anchors": ["src/stdlib/exit.c: abort", "src/signal/raise.c"]}
{"id": "C64", "title": "sbrk hands out fresh disjoint memory", "statement": "Successive successful __sbrk calls return consecutive, disjoint regions inside linear memory that do not overlap the program's static data or stack; failure leaves the break unchanged and sets ENOMEM.", "quantifier": "every sequence of increments and initial memory layout", "why_tests_cant": "unbounded histories", "anchors": ["src/unistd/sbrk.c", "src/crt/crt1.c"]}
{"id": "C65", "title": "setlocale", "statement": "setlocale accepts exactly the documented locale names for valid categories, returns a name that can be passed back to restore the locale, and never changes state on failure.", "quantifier": "every category int and every name", "why_tests_cant": "unbounded names", "anchors": ["src/locale/setlocale.c"]}
{"id": "C66", "title": "floor, ceil, trunc (portable versions)", "statement": "The bit-manipulating floor/ceil/trunc return the largest integer not above / smallest not below / integer part of x, with the sign of zero preserved and NaN/infinity unchanged.", "quantifier": "every double and float bit pattern", "why_tests_cant": "2^64 inputs", "anchors": ["src/math/double/floor.h", "src/math/double/ceil.h", "src/math/double/trunc.h", "src/math/float/floorf.h"]}
{"id": "C67", "title": "lround and round", "statement": "round/lround/llround round half away from zero for every argument in range.", "quantifier": "every double", "why_tests_cant": "2^64 inputs; failures at 0.5-ulp neighbours", "anchors": ["src/math/double/round.h", "src/math/double/lround.c", "src/math/float/roundf.h"]}
{"id": "C68", "title": "fmod is exact", "statement": "fmod(x,y) for finite x and nonzero y is exactly x - trunc(x/y)*y with the sign of x; NaN for infinite x or zero y; x itself for infinite y.", "quantifier": "every pair of doubles / floats", "why_tests_cant": "2^128 inputs; exponent gaps up to 2000", "anchors": ["src/math/double/fmod.h", "src/math/float/fmodf.h"]}
{"id": "C69", "title": "remainder and remquo", "statement": "remainder(x,y) is exactly x - n*y with n the integer nearest x/y (ties to even); remquo also returns the low three bits of n with the sign of x/y.", "quantifier": "every pair of doubles", "why_tests_cant": "2^128 inputs", "anchors": ["src/math/double/remainder.c", "src/math/double/remquo.h"]}
{"id": "C70", "title": "frexp and scalbn", "statement": "frexp(x) returns m in [1/2,1) and e with x = m*2^e for every finite nonzero x; scalbn(x,n) is x*2^n correctly rounded (exact unless subnormal/overflow); scalbn(frexp) gives x back.", "quantifier": "every double, every int exponent", "why_tests_cant": "2^96 inputs", "anchors": ["src/math/double/frexp.c", "src/math/double/scalbn.h", "src/math/double/normalize.h", "src/math/long-double/ldexpl.c"]}
{"id": "C71", "title": "ilogb and logb", "statement": "ilogb/logb return floor(log2 |x|) for every finite nonzero x including subnormals, and the special values for 0, infinity, NaN.", "quantifier": "every double/float", "why_tests_cant": "2^64 inputs", "anchors": ["src/math/double/ilogb.c", "src/math/double/logb.c"]}
{"id": "C72", "title": "nextafter", "statement": "nextafter(x,y) is the adjacent representable value of x in the direction of y: nothing representable lies strictly between, and it is y when x = y.", "quantifier": "every pair of doubles", "why_tests_cant": "2^128 inputs", "anchors": ["src/math/double/nextafter.c", "src/math/float/nextafterf.c", "src/math/double/nexttoward.c", "src/math/float/nexttowardf.c"]}
{"id": "C73", "title": "fma is correctly rounded", "statement": "fma(a,b,c) is the round-to-nearest-even value of a*b+c for all finite inputs.", "quantifier": "every triple of doubles", "why_tests_cant": "2^192 inputs; failures on special exponent alignments", "anchors": ["src/math/double/fma.c"]}
{"id": "C74", "title": "fmaf is correctly rounded", "statement": "fmaf(a,b,c) is the round-to-nearest-even value of a*b+c for all finite inputs, including subnormal results.", "quantifier": "every triple of floats", "why_tests_cant": "2^96 inputs; double rounding", "anchors": ["src/math/float/fmaf.h"]}
{"id": "C75", "title": "fmin, fmax, fdim", "statement": "fmax/fmin return the larger/smaller argument, ignoring a single NaN; fdim returns max(x-y,0).", "quantifier": "every pair of doubles", "why_tests_cant": "2^128 inputs", "anchors": ["src/math/double/fmax.c", "src/math/double/fmin.c", "src/math/double/fdim.c"]}
{"id": "C76", "title": "truncl and nexttowardl on binary128", "statement": "truncl returns the integer part of any long double keeping sign and special values; nexttowardl the adjacent value.", "quantifier": "every binary128 value", "why_tests_cant": "2^128 inputs", "anchors": ["src/math/long-double/truncl.c", "src/math/long-double/nexttowardl.c"]}
{"id": "C77", "title": "nearbyintl rounds to integer", "statement": "nearbyintl(x) is the integer nearest x, ties to even, as a long double, for every x.", "quantifier": "every binary128 value", "why_tests_cant": "2^128 inputs", "anchors": ["src/math/long-double/nearbyintl.c"]}
{"id": "C78", "title": "strtod/strtof are correctly rounded", "statement": "strtod and strtof return the double/float nearest (ties to even) to the decimal or hexadecimal string's exact value, set *endptr just past the longest valid prefix, and ERANGE on overflow.", "quantifier": "every input string", "why_tests_cant": "unbounded strings; hard rounding cases", "anchors": ["src/stdlib/parse/*.h", "src/stdlib/strtod.c", "src/stdlib/strtof.c"]}
{"id": "C79", "title": "strftime expands the standard conversion specifiers", "statement": "For every format of ordinary characters and C11 conversion specifications (with or without E/O modifiers) and every in-range struct tm, the text strftime produces is the concatenation of the characters the C locale requires for each specification.", "quantifier": "every format, every in-range struct tm", "why_tests_cant": "unbounded formats times all dates", "anchors": ["src/time/strftime.c"]}
{"id": "C80", "title": "time, timespec_get and clock report the host clock exactly", "statement": "For every 64-bit host time in nanoseconds, time returns the whole seconds, timespec_get seconds and nanoseconds that recombine to it with the nanoseconds below one second, and clock whole microseconds, without overflow; host failure gives the documented error results.", "quantifier": "every 64-bit host time and every error number", "why_tests_cant": "2^64 host times", "anchors": ["src/time/time.c", "src/time/timespec_get.c", "src/time/clock.c"]}
{"id": "C81", "title": "stat conversion", "statement": "Converting the host's file status keeps the size, gives the number of 512-byte blocks rounded up, splits times into seconds and nanoseconds exactly, and gives the file-type bits of the file's kind.", "quantifier": "every size below 2^63, every 64-bit time, every file type", "why_tests_cant": "2^63 sizes", "anchors": ["src/wasi/stat_convert.h"]}
{"id": "C82", "title": "printf interprets format strings as the standard says", "statement": "For every format made of ordinary text, %% and conversion specifications with any flags, width and precision (literal or *), and length modifier, the formatter prints the texts of the items in order, consumes the arguments each one names, and returns the total length.", "quantifier": "every format of any length, every argument list, every memory", "why_tests_cant": "unbounded formats", "anchors": ["src/stdio/vfprintf.c"]}
{"id": "C83", "title": "printf %a prints floating-point numbers in hexadecimal", "statement": "%a without precision prints exactly the value of its argument; with precision p it prints the value rounded to nearest, ties to even, to p hexadecimal digits; infinities and NaNs print as inf and nan; sign, width and flags as for the other conversions; both for double and long double.", "quantifier": "every bit pattern, flags, width and precision", "why_tests_cant": "2^64 and 2^128 patterns times unbounded widths", "anchors": ["src/stdio/vfprintf.c"]}
{"id": "C84", "title": "printf %f prints floating-point numbers in decimal", "statement": "%f with precision p prints the value of its argument correctly rounded to p decimals, with the sign, width and flag semantics of the C standard.", "quantifier": "every double, flags, width and precision", "why_tests_cant": "2^64 patterns times unbounded precisions", "anchors": ["src/stdio/vfprintf.c"]}
{"id": "C85", "title": "fseek, ftell, rewind, fgetpos and fsetpos agree", "statement": "fseek makes the next read start at the requested offset from the start, the current position (pushed-back characters taken into account) or the end; going back to a position told earlier restores the unread input whatever was read in between; rewind returns to the start and clears both indicators.", "quantifier": "every stream state, offset and sequence of reads (positions below 2^31, not in append mode)", "why_tests_cant": "unbounded sequences of calls", "anchors": ["src/stdio/fseek.c", "src/stdio/ftell.c", "src/stdio/rewind.c", "src/stdio/fgetpos.c", "src/stdio/fsetpos.c", "src/stdio/_seek.c"]}
{"id": "C86", "title": "ftell and a failing fseek do not disturb the stream", "statement": "ftell leaves the end-of-file indicator and the position unchanged; an fseek that reports failure leaves the stream as it was.", "quantifier": "every stream state and offset", "why_tests_cant": "the damage shows only in later calls and in particular modes", "anchors": ["src/stdio/ftell.c", "src/stdio/fseek.c", "src/stdio/_seek.c"]}
{"id": "C87", "title": "Output calls write their bytes in order", "statement": "Any sequence of putc, fputs, fwrite and puts on a regular file reports success and leaves exactly the concatenation of their bytes at the position where it started (at the end in append mode), every other byte of the file unchanged.", "quantifier": "every sequence of output calls and every file", "why_tests_cant": "unbounded sequences", "anchors": ["src/stdio/putc.h", "src/stdio/fputs.c", "src/stdio/fwrite.c", "src/stdio/puts.c", "src/stdio/_write.c"]}
{"id": "C88", "title": "Output calls report failure", "statement": "putc, fputs, fwrite and puts report success only if all their bytes were written, and set the error indicator otherwise.", "quantifier": "every behaviour of the host", "why_tests_cant": "host errors and short writes at every point", "anchors": ["src/stdio/putc.h", "src/stdio/fputs.c", "src/stdio/fwrite.c", "src/stdio/puts.c"]}
{"id": "C89", "title": "ungetc returns the character pushed back", "statement": "ungetc(c) returns the character pushed back after conversion to unsigned char.", "quantifier": "every int c", "why_tests_cant": "2^32 arguments", "anchors": ["src/stdio/ungetc.c"]}
{"id": "C90", "title": "sscanf reads back decimal numbers", "statement": "Given white-space separated decimal numbers in the range of int and as many %d directives, sscanf returns their count and stores exactly these numbers, in order.", "quantifier": "every list of numbers, every amount of white space and leading zeros (up to 126 digits each)", "why_tests_cant": "unbounded inputs", "anchors": ["src/stdio/vfscanf.c", "src/stdio/vsscanf.c"]}
{"id": "C91", "title": "scanf %s, %[ and %c", "statement": "%s skips white space and stores the longest run of at most width other characters with a terminator; %[ stores the longest run of at most width members of the set written in the format (single characters, ranges, a leading ^ or ]); %c stores width characters, or what is left, without a terminator. Each consumes exactly the characters it stores (and the white space).", "quantifier": "every input, width and scan set", "why_tests_cant": "unbounded inputs and formats", "anchors": ["src/stdio/vfscanf.c"]}
{"id": "C92", "title": "scanf %n and %%", "statement": "%n stores the number of characters consumed so far and is not counted; %% matches a percent sign and uses no argument.", "quantifier": "every input", "why_tests_cant": "unbounded inputs", "anchors": ["src/stdio/vfscanf.c"]}
{"id": "C93", "title": "rint, lrint and llrint round to nearest even", "statement": "rint(x) is the integer nearest x with ties to even, keeping the sign (so -0.5 gives -0), NaN and infinities unchanged; lrint and llrint return that integer, clamped to the type; the portable code and the rounding instruction agree.", "quantifier": "every double and float bit pattern", "why_tests_cant": "2^64 inputs; the add-2^52 trick fails only near ties and sign changes", "anchors": ["src/math/double/rint.h", "src/math/float/rintf.h", "src/math/double/lrint.c", "src/math/double/llrint.c", "src/math/float/lrintf.c", "src/math/float/llrintf.c"]}
{"id": "C94", "title": "modf splits a number", "statement": "modf returns the integer part of x through the pointer and the exact fraction x - trunc(x) as its value, both with the sign of x; an infinity gives itself and a zero, a NaN gives NaNs.", "quantifier": "every double and float bit pattern", "why_tests_cant": "2^64 inputs", "anchors": ["src/math/double/modf.c", "src/math/float/modff.c"]}
{"id": "C95", "title": "Wide strings: length, comparison and searching", "statement": "wcslen counts the characters before the terminator; wcscmp, wcscoll, wcsncmp and wmemcmp order texts lexicographically by character value (wchar_t is signed; at most n characters and nothing after a terminator count in wcsncmp); wcschr, wcsrchr, wmemchr, wcsspn, wcscspn, wcspbrk and wcsstr return the first (last) position with the property sought, or report its absence. Nothing beyond the terminator (or the given length) is read.", "quantifier": "every memory, wide string, character and length", "why_tests_cant": "unbounded strings with 2^32 characters each; over-reads show only at the end of memory", "anchors": ["src/wchar/wcslen.c", "src/wchar/wcscmp.c", "src/wchar/wcscoll.c", "src/wchar/wcsncmp.c", "src/wchar/wmemcmp.c", "src/wchar/wcschr.c", "src/wchar/wcsrchr.c", "src/wchar/wmemchr.c", "src/wchar/wcsspn.c", "src/wchar/wcscspn.c", "src/wchar/wcspbrk.c", "src/wchar/wcsstr.c"]}
{"id": "C96", "title": "Wide strings: copying", "statement": "wcscpy, wcscat, wcsncpy (padding with null characters), wcsncat, wmemset, wmemcpy, wmemmove (overlap allowed) and wcsxfrm write exactly the characters they should, change no other byte and return the right value; wcsxfrm returns the whole length and terminates what fits.", "quantifier": "every memory, wide string, length and (non-overlapping where required) destination", "why_tests_cant": "unbounded strings; stray writes", "anchors": ["src/wchar/wcscpy.c", "src/wchar/wcscat.c", "src/wchar/wcsncpy.c", "src/wchar/wcsncat.c", "src/wchar/wmemset.c", "src/wchar/wmemcpy.c", "src/wchar/wmemmove.c", "src/wchar/wcsxfrm.c"]}
{"id": "C97", "title": "wcstok splits a wide string into its tokens", "statement": "Calling wcstok until it returns a null pointer yields exactly the maximal runs of non-separator characters in order, each terminated in place; only separators are overwritten.", "quantifier": "every string and separator set", "why_tests_cant": "unbounded strings and call sequences", "anchors": ["src/wchar/wcstok.c"]}
{"id": "C98", "title": "wide-character number parsing agrees with the grammar", "statement": "wcstol, wcstoul, wcstoll, wcstoull, wcstoimax and wcstoumax return the value of the longest integer prefix of the wide string in the given base, saturated with ERANGE, and *end just past it; wcstod and wcstof the nearest floating-point number; however long the number is.", "quantifier": "every wide string, every base", "why_tests_cant": "unbounded wide strings", "anchors": ["src/wchar/parse.h", "src/wchar/wcstol.c", "src/wchar/wcstoul.c", "src/wchar/wcstoll.c", "src/wchar/wcstoull.c", "src/wchar/wcstod.c", "src/wchar/wcstof.c", "src/inttypes/strtoimax.c", "src/inttypes/strtoumax.c", "src/inttypes/wcstoimax.c", "src/inttypes/wcstoumax.c"]}
{"id": "C99", "title": "wide-oriented streams", "statement": "On a file that is the UTF-8 encoding of a text, every sequence of fgetwc, ungetwc, fgetws, feof and ferror answers like a stream of characters; on any bytes fgetwc takes exactly one UTF-8 sequence, reporting an ill-formed or cut-off one as an encoding error; fputwc and fputws put exactly the encodings of their characters into the file and report failure otherwise; fwide reports an orientation that never changes once set by any input or output function; repositioning discards pushed-back characters.", "quantifier": "every file, text, call sequence and host behaviour", "why_tests_cant": "unbounded files and call sequences", "anchors": ["src/wchar/fgetwc.c", "src/wchar/fgetws.c", "src/wchar/ungetwc.c", "src/wchar/fputwc.c", "src/wchar/fputws.c", "src/wchar/fwide.c"]}
{"id": "C100", "title": "formatted wide output", "statement": "swprintf stores the characters that the byte formatter prints for the same format, followed by a terminator, never writes beyond the given size, returns their number, or a negative value when they do not fit or are not characters; fwprintf writes the encoding of the same characters and returns their number; widths and precisions count characters.", "quantifier": "every format, argument list, array and size; every splitting of the output into pieces", "why_tests_cant": "unbounded formats; characters split across pieces", "anchors": ["src/wchar/vfwprintf.c", "src/wchar/vswprintf.c", "src/wchar/swprintf.c", "src/wchar/fwprintf.c", "src/wchar/wprintf.c", "src/wchar/vwprintf.c"]}
{"id": "C101", "title": "formatted wide input from strings", "statement": "swscanf scans a wide text as sscanf scans its encoding: numbers are stored exactly whatever wide text follows, a text that is not made of characters gives EOF; %ls stores wide characters and %n counts characters.", "quantifier": "every wide text and format", "why_tests_cant": "unbounded texts", "anchors": ["src/wchar/vswscanf.c", "src/wchar/swscanf.c"]}
{"id": "C102", "title": "remove, rename and the stat family pass on the host's verdict", "statement": "remove unlinks the file the path denotes, and removes it as a directory exactly when the host says it is one; rename, stat, lstat and fstat make one request for the objects their arguments denote; each returns 0 exactly when the last request succeeded, and otherwise -1 with errno naming the host's error; a path outside the preopened directories gives ENOENT and no request at all.", "quantifier": "every path, every set of preopened directories, every host behaviour", "why_tests_cant": "the host is arbitrary", "anchors": ["src/stdio/remove.c", "src/stdio/rename.c", "src/sys/stat/stat.c", "src/sys/stat/lstat.c", "src/sys/stat/fstat.c"]}
{"id": "C103", "title": "streams and descriptors correspond", "statement": "In every program that opens, closes and reopens files, the descriptors opened and not yet closed are exactly those of the open streams, no descriptor is shared or closed twice, and no call has undefined behaviour.", "quantifier": "every sequence of calls and every host behaviour", "why_tests_cant": "unbounded histories; leaks are invisible to single calls", "anchors": ["src/stdio/fopen.c", "src/stdio/fclose.c", "src/stdio/freopen.c", "src/stdio/_open.c", "src/stdio/_close.c"]}
{"id": "C104", "title": "fopen, freopen and fclose report failures", "statement": "fopen returns a new stream for the file, or a null pointer with errno telling why, having allocated nothing; fclose releases the stream and returns EOF with errno telling why if closing failed; fclose and freopen also work on stdin, stdout and stderr; running out of memory is reported.", "quantifier": "every path, mode, host behaviour and stream", "why_tests_cant": "error paths depend on the host", "anchors": ["src/stdio/fopen.c", "src/stdio/fclose.c", "src/stdio/freopen.c"]}
{"id": "C105", "title": "hypotf is correctly rounded", "statement": "For all finite floats x and y, hypotf(x, y) is defined and returns the float nearest to the exact length sqrt(x*x + y*y), ties to even, and +infinity exactly when that rounding overflows; no intermediate step overflows or underflows. If either argument is infinite the result is +infinity, even when the other is a NaN; otherwise a NaN argument gives a NaN.", "quantifier": "all pairs of binary32 patterns (2^64 of them)", "why_tests_cant": "The function sums squares in double and takes a double root, which is wrong exactly when that root falls on a midpoint of two floats; about one pair in 2^29 gets near it and the recovery code (TwoSum, two residuals, parity) only runs there. At the overflow threshold it skips that recovery, which is right only because no sum of two squares of floats lies just below the square of the threshold - a number-theoretic fact no test can establish.", "anchors": ["src/math/float/hypotf.c: hypotf", "src/math/float/nextafterf.c: nextafterf", "src/math/float/fmaxf.c: fmaxf", "src/math/float/fminf.c: fminf"]}
{"id": "C106", "title": "expf is accurate to within a small fraction of an ulp and faithful", "statement": "For every finite float x, expf(x) is defined and returns the float nearest to some real number within relative distance 2^-50 of e^x. Hence no float lies strictly between the result and e^x, the result is correctly rounded unless e^x is within 2^-50 of the midpoint of two floats, overflow gives +infinity and underflow +0 exactly when the rounding does. expf(-inf) = 0 and expf(+inf) = +inf; a NaN argument gives a NaN.", "quantifier": "all binary32 patterns", "why_tests_cant": "The error has four sources (argument reduction, polynomial, rounding of eleven Horner steps, final rounding) that compound differently for every argument; comparison with a reference at sample points bounds none of them, and the thresholds are doubles that no float equals.", "anchors": ["src/math/float/expf.c: expf", "src/math/float/kernel/expf.h: kernel_expf_", "src/math/double/shift.h: shift_"]}
{"id": "C107", "title": "exp2f is faithful and exact on integers", "statement": "For every finite float x, exp2f(x) is defined and returns the float nearest to some real number within relative distance 2^-49 of 2^x; no float lies strictly between the result and 2^x; the two specially treated arguments get the correctly rounded result; 2^n is exact for every integer n from -149 to 127. exp2f(-inf) = 0 and exp2f(+inf) = +inf; a NaN argument gives a NaN.", "quantifier": "all binary32 patterns", "why_tests_cant": "As for expf; the exactness on subnormal powers depends on the double to float conversion of a scaled double.", "anchors": ["src/math/float/exp2f.c: exp2f", "src/math/float/kernel/exp2f.h: kernel_exp2f_", "src/math/double/shift.h: shift_"]}
{"id": "C108", "title": "logf is accurate to within a small fraction of an ulp and faithful", "statement": "For every positive finite float x, subnormal or normal, logf(x) is defined and returns the float nearest to some real number within relative distance 2^-49 of ln x, so no float lies strictly between the result and ln x and the result is correctly rounded unless ln x is that close to the midpoint of two floats. logf(1) = +0, logf(+-0) = -infinity, logf(+inf) = +inf, and negative arguments and NaNs give NaN.", "quantifier": "all binary32 patterns", "why_tests_cant": "Cancellation near 1 makes the relative error of the result the relative error of a quotient and a polynomial; the rounding errors compound differently for every one of two billion arguments, and three arguments are so close to midpoints that the code lists them by hand.", "anchors": ["src/math/float/logf.c: logf", "src/math/float/kernel/atanhf.h: kernel_atanhf_", "src/math/float/normalize.h: normalize_"]}
{"id": "C109", "title": "log2f is faithful and exact on powers of two", "statement": "For every positive finite float x, log2f(x) is defined and returns the float nearest to some real number within relative distance 2^-49 of the binary logarithm of x; no float lies strictly between the two; log2f(2^n) = n for every power of two that is a float; zeros, infinities, negative arguments and NaNs as in C108.", "quantifier": "all binary32 patterns", "why_tests_cant": "see C108; exactness at powers of two needs the sum of an exact integer and an exact zero.", "anchors": ["src/math/float/log2f.c: log2f", "src/math/float/kernel/atanhf.h: kernel_atanhf_"]}
{"id": "C110", "title": "log10f is faithful and exact on powers of ten", "statement": "For every positive finite float x, log10f(x) is defined and returns the float nearest to some real number within relative distance 2^-48 of the decimal logarithm of x; no float lies strictly between the two; log10f(10^n) = n whenever 10^n is a float; zeros, infinities, negative arguments and NaNs as in C108.", "quantifier": "all binary32 patterns", "why_tests_cant": "see C108; exactness at powers of ten follows only from an error bound below half the distance to the neighbouring float.", "anchors": ["src/math/float/log10f.c: log10f", "src/math/float/kernel/atanhf.h: kernel_atanhf_"]}
{"id": "C111", "title": "log1pf is faithful, also near zero and near -1", "statement": "For every finite float x > -1 other than zero, log1pf(x) is defined and returns the float nearest to some real number within relative distance 2^-48 of ln(1+x), so no float lies strictly between the result and ln(1+x). log1pf(+-0) = +-0, log1pf(-1) = -infinity, log1pf(+inf) = +inf; smaller arguments and NaNs give NaN.", "quantifier": "all binary32 patterns", "why_tests_cant": "Near zero the sum 1+x loses x entirely, so accuracy there depends on the second branch being selected for exactly the right arguments; eight arguments are listed by hand because the computed value is on the wrong side of a midpoint.", "anchors": ["src/math/float/log1pf.c: log1pf", "src/math/float/finite/log1pf.h: log1pf_", "src/math/float/kernel/atanhf.h: kernel_atanhf_"]}
{"id": "C112", "title": "atanhf is faithful on the whole of (-1, 1)", "statement": "If x is a nonzero float and tanh v = x then atanhf(x) is defined and is the float nearest to some real number within relative distance 2^-48 of v; no float lies strictly between the result and v. atanhf(+-0) = +-0, atanhf(+-1) = +-infinity; arguments of magnitude above 1 and NaNs give NaN.", "quantifier": "all binary32 patterns and all real v", "why_tests_cant": "the condition of the problem changes from one at zero to unbounded at one; no sampling shows that the quotient (1+x)/(1-x) keeps enough bits.", "anchors": ["src/math/float/atanhf.c: atanhf", "src/math/float/kernel/atanhf.h: kernel_atanhf_"]}
{"id": "C113", "title": "asinhf is faithful for all floats", "statement": "If x is a nonzero finite float and sinh v = x then asinhf(x) is defined and is the float nearest to some real number within relative distance 2^-48 of v; no float lies strictly between the result and v. Zeros, infinities and NaNs are returned unchanged.", "quantifier": "all binary32 patterns and all real v", "why_tests_cant": "x*x is rounded, underflows to nothing beside 1 and reaches 2^256; five roundings precede the logarithm; three arguments are hard-coded.", "anchors": ["src/math/float/asinhf.c: asinhf", "src/math/float/kernel/atanhf.h: kernel_atanhf_"]}
{"id": "C114", "title": "acoshf is faithful on [1, infinity)", "statement": "If x > 1 is a finite float, v >= 0 and cosh v = x then acoshf(x) is defined and is the float nearest to some real number within relative distance 2^-40 of v (2^-48 if x >= 1.1); no float lies strictly between the result and v. acoshf(1) = +0, acoshf(+inf) = +inf; arguments below 1 and NaNs give NaN.", "quantifier": "all binary32 patterns and all real v >= 0", "why_tests_cant": "near 1 the result is the logarithm of a sum close to 1, which amplifies the rounding error of the sum by a factor 2^11; only a bound on that amplification shows that single precision survives.", "anchors": ["src/math/float/acoshf.c: acoshf", "src/math/float/kernel/atanhf.h: kernel_atanhf_"]}
{"id": "C115", "title": "expm1f is faithful, also near zero", "statement": "For every nonzero finite float x, expm1f(x) is defined and returns the float nearest to some real number within relative distance 2^-45 of e^x - 1, so no float lies strictly between the result and e^x - 1 and the result is infinite only on overflow. expm1f(+-0) = +-0, expm1f(+inf) = +inf, expm1f(-inf) = -1; a NaN argument gives a NaN.", "quantifier": "all binary32 patterns", "why_tests_cant": "e^x - 1 cancels near zero, where the relative error of the polynomial and of the factor x both count; between the branches 2^n (e^r) - 1 cancels by a data-dependent amount; overflow and the limit -1 are reached through scaling of a double.", "anchors": ["src/math/float/expm1f.c: expm1f", "src/math/float/expm1f.h: expm1f_", "src/math/float/kernel/expf.h: kernel_expf_"]}
{"id": "C116", "title": "coshf is faithful for all floats", "statement": "For every finite float x, coshf(x) is defined and returns the float nearest to some real number within relative distance 2^-45 of cosh x; no float lies strictly between the two and the result is infinite only on overflow. coshf(+-inf) = +inf; a NaN argument gives a NaN.", "quantifier": "all binary32 patterns", "why_tests_cant": "the exponential overflows float long before double, so the result near the overflow threshold depends on intermediate values no test of the final result separates.", "anchors": ["src/math/float/coshf.c: coshf", "src/math/float/expf.h: expf_"]}
{"id": "C117", "title": "sinhf is faithful for all floats", "statement": "For every nonzero finite float x, sinhf(x) is defined and returns the float nearest to some real number within relative distance 2^-44 of sinh x; no float lies strictly between the two. Zeros and infinities are returned unchanged; a NaN argument gives a NaN.", "quantifier": "all binary32 patterns", "why_tests_cant": "the result is a sum y + y/(y+1) of a rounded exponential; relative accuracy near zero is inherited from expm1 and must survive three further roundings for each of four billion arguments.", "anchors": ["src/math/float/sinhf.c: sinhf", "src/math/float/expm1f.h: expm1f_"]}
{"id": "C118", "title": "tanhf is faithful for all floats", "statement": "For every nonzero finite float x, tanhf(x) is defined and returns the float nearest to some real number within relative distance 2^-45 of tanh x; no float lies strictly between the two. tanhf(+-0) = +-0, tanhf(+-inf) = +-1; a NaN argument gives a NaN.", "quantifier": "all binary32 patterns", "why_tests_cant": "saturation to 1 must not start before the true value rounds to 1, and the quotient must stay accurate for tiny arguments.", "anchors": ["src/math/float/tanhf.c: tanhf", "src/math/float/expm1f.h: expm1f_"]}
{"id": "C119", "title": "cbrtf is faithful for all floats and exact on cubes", "statement": "For every nonzero finite float x, normal or subnormal, cbrtf(x) is defined and returns the float nearest to some real number within relative distance 2^-46 of the real cube root of x; no float lies strictly between the two; if the cube root is a float the result is that float. Zeros, infinities and NaNs are returned unchanged.", "quantifier": "all binary32 patterns", "why_tests_cant": "The first guess is an integer division of the bit pattern; its error must stay below 3.3% over all exponents modulo three, including the negative ones a subnormal is normalized to, for two iterations to suffice.", "anchors": ["src/math/float/cbrtf.c: cbrtf", "src/math/float/normalizef.h: normalizef_"]}
{"id": "C120", "title": "atanf is faithful for all floats", "statement": "For every nonzero finite float x, atanf(x) returns the float nearest to some real number within relative distance 2^-46 of atan x, so no float lies strictly between the result and atan x and the result is correctly rounded unless atan x is that close to the midpoint of two floats. atanf(+-0) = +-0, atanf(+-inf) is pi/2 with that sign rounded to nearest, a NaN argument gives a NaN.", "quantifier": "all binary32 patterns", "why_tests_cant": "Accuracy needs a bound on a rational approximation over a whole interval, on fourteen Horner steps, on a rounded reciprocal and on the constant for pi/2, for four billion arguments.", "anchors": ["src/math/float/atanf.c: atanf", "src/math/float/kernel/atanf.h: kernel_atanf_"]}
{"id": "C121", "title": "asinf is faithful on [-1, 1]", "statement": "For every nonzero float x with |x| <= 1, asinf(x) returns the float nearest to some real number within relative distance 2^-44 of asin x, so no float lies strictly between the result and asin x. asinf(+-0) = +-0; asinf(+-1) is pi/2 with that sign rounded to nearest; arguments of magnitude above 1, infinities and NaNs give NaN.", "quantifier": "all binary32 patterns", "why_tests_cant": "The derivative of the arcsine is unbounded at 1; the code changes variables at 1/2 and one argument is answered from a table. Sampling bounds neither the polynomial nor the cancellation in pi/2 - 2 asin(s).", "anchors": ["src/math/float/asinf.c: asinf", "src/math/float/kernel/asin.h: kernel_asin_"]}
{"id": "C122", "title": "acosf is faithful on [-1, 1]", "statement": "For every float x with -1 <= x < 1, acosf(x) returns the float nearest to some real number within relative distance 2^-44 of acos x, so no float lies strictly between the result and acos x, even where acos x is tiny; acosf(1) = +0; arguments of magnitude above 1, infinities and NaNs give NaN.", "quantifier": "all binary32 patterns", "why_tests_cant": "Near 1 the value tends to zero like sqrt(2(1 - x)), so relative accuracy depends on 1 - |x| being exact; two arguments are answered from a table.", "anchors": ["src/math/float/acosf.c: acosf", "src/math/float/kernel/asin.h: kernel_asin_"]}
{"id": "C123", "title": "sinf is faithful for all finite floats", "statement": "For every nonzero finite float x, however large, sinf(x) returns the float nearest to some real number within relative distance 2^-26 of sin x (2^-39 when |x| < 2^15), so no float lies strictly between the result and sin x. sinf(+-0) = +-0; infinities and NaNs give NaN; the call is free of undefined behaviour.", "quantifier": "all binary32 patterns", "why_tests_cant": "The reduction modulo pi/2 loses as many bits as x is close to a multiple of pi/2, and the worst float out of 2^32 must be known; large arguments use a 256-bit table of 2/pi with a bit offset per exponent; the reference is a real function, not another libm.", "anchors": ["src/math/float/sinf.c:sinf", "src/math/float/rem_pio2f.c:__rem_pio2f", "src/math/float/kernel/sincosf.h:kernel_sinf_"]}
{"id": "C124", "title": "cosf is faithful for all finite floats", "statement": "For every finite float x, however large, cosf(x) returns the float nearest to some real number within relative distance 2^-26 of cos x (2^-39 when |x| < 2^15), even where cos x is nearly zero, so no float lies strictly between the result and cos x. cosf(+-0) = 1; infinities and NaNs give NaN; the call is free of undefined behaviour.", "quantifier": "all binary32 patterns", "why_tests_cant": "Relative accuracy near the zeros of cos depends on the float closest to an odd multiple of pi/2; a test would need a reference with hundreds of bits of pi for each of 2^32 arguments.", "anchors": ["src/math/float/cosf.c:cosf", "src/math/float/rem_pio2f.c:__rem_pio2f", "src/math/float/kernel/sincosf.h:kernel_cosf_"]}
{"id": "C125", "title": "tanf is faithful for all finite floats", "statement": "For every nonzero finite float x, however large, tanf(x) returns the float nearest to some real number within relative distance 2^-26 of tan x (2^-39 when |x| < 2^15), so no float lies strictly between the result and tan x, also near its zeros and poles. tanf(+-0) = +-0; infinities and NaNs give NaN; the call is free of undefined behaviour.", "quantifier": "all binary32 patterns", "why_tests_cant": "Near poles the error of the reduction is amplified; the bound needs a certified distance of every float from every multiple of pi/2.", "anchors": ["src/math/float/tanf.c:tanf", "src/math/float/rem_pio2f.c:__rem_pio2f"]}
{"id": "C126", "title": "setvbuf accepts exactly the three buffering modes", "statement": "setvbuf returns zero if the mode is _IOFBF, _IOLBF or _IONBF and nonzero for every other int.", "quantifier": "every int", "why_tests_cant": "2^32 modes", "anchors": ["src/stdio/setvbuf.c: setvbuf", "src/stdio/setbuf.c: setbuf"]}
{"id": "C127", "title": "Complex multiplication keeps infinities and never invents NaN + NaN i", "statement": "For float and double complex operands of *: if one is infinite (some part is, even beside a NaN) and the other is infinite or finite and nonzero, the product is infinite. For finite operands the product is never NaN + NaN i, and when no product of parts overflows each part is the rounded sum of the two rounded products. Without NaNs in the operands, NaN + NaN i appears only for infinity times zero. An overflowing product of parts is not lost to NaNs of the other parts.", "quantifier": "all binary32 and binary64 patterns for the four parts", "why_tests_cant": "2^128 or 2^256 operand combinations; the interesting ones are infinities with zeros, NaNs and overflowing finite products", "anchors": ["src/soft/complex/multiplication.h: FUNCTION", "src/soft/complex/mulsc3.c: __mulsc3", "src/soft/complex/muldc3.c: __muldc3"]}
{"id": "C128", "title": "Float complex division is accurate in each part", "statement": "For finite float complex operands of / with nonzero divisor, the real and the imaginary part of the quotient are each the float nearest to some real number within relative distance 2^-51 of the exact part, even when the part suffers cancellation, overflow or underflow of the squares; an exact part of zero gives zero.", "quantifier": "all binary32 patterns for the four parts", "why_tests_cant": "Componentwise accuracy under cancellation cannot be sampled; the range of the squares exceeds the format", "anchors": ["src/soft/complex/divsc3.c: __divsc3, kernel_"]}
{"id": "C129", "title": "Float complex division treats infinities and zeros as Annex G asks", "statement": "An infinite number divided by a finite one (zero included) is infinite; a finite nonzero number divided by zero is infinite; a finite number divided by an infinite one is a zero.", "quantifier": "all binary32 patterns for the four parts", "why_tests_cant": "The NaN recovery paths depend on every combination of classes of four parts", "anchors": ["src/soft/complex/divsc3.c: __divsc3"]}
{"id": "C130", "title": "Integer powers have a small relative error", "statement": "For every finite double x and every int n with |x^n| in [2^-1021, 2^1022], x nonzero if n < 0, the compiler's integer power is finite with relative error at most 3/2 n 2^-53 (3 |n| 2^-53 for negative n); the same for floats with 2^-24, |n| <= 2^21 and [2^-125, 2^126]. The zeroth power is 1 for every x, NaN included. Every call returns.", "quantifier": "all doubles/floats and all ints", "why_tests_cant": "The error accumulates over up to 2^31 implicit factors; superfluous last squarings may overflow", "anchors": ["src/soft/powi/powi.h: powi_, powu_", "src/soft/powi/powidf2.c: __powidf2", "src/soft/powi/powisf2.c: __powisf2"]}
{"id": "C131", "title": "The complex square root is accurate and handles infinities", "statement": "For every complex argument whose parts are 0 or of size 2^-480 to 2^298, not both 0, both parts of the double complex square root have relative error at most 2^-50, the real part is not negative and the imaginary part keeps the sign of the argument's (also of a zero). Infinite, zero and NaN arguments give the results of C11 Annex G. A finite argument never gives an infinite or grossly wrong root.", "quantifier": "all pairs of doubles", "why_tests_cant": "The intermediate squares overflow or vanish for most exponents; the domain has 2^128 points", "anchors": ["src/math/double/csqrt.c: csqrt", "src/math/double/finite/csqrt.h: csqrt_"]}
{"id": "C132", "title": "asprintf returns a block of exactly the text", "statement": "For every format and argument list with an output of at most INT_MAX characters, asprintf and vasprintf return its length and store a pointer to a new block of length + 1 bytes that holds exactly the text and a NUL; no byte that existed before changes. If formatting or the allocation fails they return -1, store a null pointer and keep no block. Nothing is written beyond the block even if the second formatting of the arguments gives a longer text.", "quantifier": "all formats, argument lists, memory states and allocators", "why_tests_cant": "The text is formatted twice with an allocation in between; sizes and allocators are unbounded", "anchors": ["src/stdio/vasprintf.c: vasprintf", "src/stdio/asprintf.c: asprintf"]}
{"id": "C133", "title": "Double complex division is accurate", "statement": "For finite double complex operands of / with nonzero divisor, each part of the quotient is within 2^-50 of the modulus of the exact quotient, whatever the scale of the divisor, from subnormal to near DBL_MAX.", "quantifier": "all binary64 patterns for the four parts", "why_tests_cant": "The scaling of the divisor covers two thousand binades and every mixture of parts; cancellation and double rounding cannot be sampled", "anchors": ["src/soft/complex/divdc3.c: __divdc3", "src/soft/complex/division.h: FUNCTION"]}
{"id": "C134", "title": "Double complex division treats infinities and zeros as Annex G asks", "statement": "An infinite number divided by a finite one (zero included) is infinite; a finite nonzero number divided by zero is infinite; a finite number divided by an infinite one is a zero.  No call has undefined behaviour in these cases.", "quantifier": "all binary64 patterns for the four parts", "why_tests_cant": "The NaN recovery paths depend on every combination of classes of four parts", "anchors": ["src/soft/complex/divdc3.c: __divdc3", "src/soft/complex/division.h: FUNCTION"]}
{"id": "C135", "title": "strerror describes every error code distinctly", "statement": "strerror returns a nonempty line of printable text for every int; two codes defined in errno.h never share a message; codes without a message all give the same one.", "quantifier": "all int arguments", "why_tests_cant": "Distinctness is a statement about all pairs of codes; defaults must hold for every other int", "anchors": ["src/string/strerror.c: strerror", "include/errno.h"]}
{"id": "C136", "title": "perror reports the message and the error", "statement": "perror(msg) writes msg, a colon and a space, the text strerror gives for errno and a newline; with a null or empty msg only the text and the newline; it changes no memory.", "quantifier": "all messages, error codes and placements of the strings in memory", "why_tests_cant": "The output depends on arbitrary strings at arbitrary alignments read word by word", "anchors": ["src/stdio/perror.c: perror", "src/stdio/vfprintf.c: vfprintf", "src/string/strerror.c: strerror"]}
