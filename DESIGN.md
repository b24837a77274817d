# Formal model of jdh8/metallic in Rocq (Coq 8.16.1)

## 1. Approach

The target is wasm32/WASI: `int`, `long`, `size_t` and pointers are 32 bits, `long long` 64 bits, `char` is
signed, `wchar_t` is a signed 32-bit int, `long double` is IEEE binary128.  All machine integers are modelled as
`Z` with explicit wrap-around (`mod 2^N`) for unsigned types and *checked* arithmetic for signed types.

* `Base.v` defines `res A := Ok a | UB | Fuel`.  Undefined behaviour (signed overflow, out-of-range shift, access
  to an unmapped byte, division by zero, infinite recursion detected by a measure, ...) is the distinct outcome
  `UB`; loops without an obvious structural measure take fuel and answer `Fuel` when it runs out.  Theorems state
  that the outcome is `Ok _`, so neither can be hidden.
* Memory is a partial map from addresses to bytes; a load/store of an unmapped address is `UB`.
* Each area has `X_Model.v` (definitions only, each citing file and lines), `X_Spec.v` (small, independent
  specification), `X_Proof.v` (lemmas) and `X_Props.v` (the property theorems closed by `exact`, each followed by
  `Print Assumptions`, plus `Example`s showing that the hypotheses are satisfiable).
* A property that is false of the code as it is gets a `..._refuted` theorem with a concrete witness, and the
  strongest true weakening gets a `..._partial` theorem; the note in MANIFEST.json says what is missing.

## 2. Plan per property

| id | modelled | proof method |
|----|----------|--------------|
| C01-C03 | every ctype/wctype function on 32-bit ints, signed overflow as UB | case analysis + `lia`; bit facts on the finite range |
| C04-C07 | mbrtowc, wcrtomb incl. the packed `mbstate_t` word | arithmetic of shifts/masks, case analysis on lengths, induction over chunks |
| C08 | mbsrtowcs, wcsrtombs, mbstowcs, wcstombs over lists | induction on the strings |
| C09 | mbrtoc16, c16rtomb with their state word | case analysis, arithmetic |
| C10-C13 | soft/integer shifts, multiply, divide on 64-bit limbs | `Z` div/mod algebra, loop invariants |
| C14-C15 | soft/integer int<->float | integer characterisation of round-to-nearest-even; Flocq for the IEEE reading |
| C16-C23 | soft/float binary128 | bit-level model on `Z`, specification by Flocq `binary_normalize`/`Bplus`... |
| C24-C33 | string functions over the byte-memory model, SWAR word loop included | loop invariants; exact carry lemma for the magic-word test |
| C34-C35 | stdlib/parse/integer.h for the four types | induction over the digit run; independent grammar spec |
| C36-C37 | qsort (introsort) and bsearch over an abstract array | invariants, permutation and sortedness |
| C38-C40 | exit machinery as a state machine; getenv over lists | induction over histories |
| C41-C42 | rand, abs, div | modular arithmetic |
| C43-C46 | gmtime/mktime/strftime/asctime | calendar arithmetic against an independent day-count spec |
| C47-C51, C82-C84 | snprintf sink, the printf parser and loop, integer, `%s`, `%a` and `%f` conversions with their base-10^9 bignums | induction on output pieces; digit-string lemmas; loop invariants for the bignum product and power |
| C52-C59, C85-C92 | FILE state machine with an oracle host stream, scanf scanner | induction over operations |
| C60-C61 | preopen lookup, errno table | induction on the table; finite check over all 16-bit codes |
| C62-C65 | signal/abort/sbrk/setlocale state machines | invariants over histories |
| C66-C77, C93, C94 | portable bit-level math functions on IEEE bit patterns (double and float in `Math_*`, long double, nexttoward and fma in `Mathl_*`, fmaf in `Fmaf_*` over `Midpoint`) | integer model of the bits; Flocq `B2R` for the real-number reading |
| C95-C97 | the wide-string functions over the same byte memory (`Wcs_*`) | induction over the strings; refinement to lists |
| C98 | the wide wrappers of the integer and floating parsers (`Wparse_*`): the copy into a fixed byte buffer and the pointer correction | reduction to the byte theorems of C34/C78 |
| C99-C101 | wide streams, wide formatted output and swscanf over the FILE machine (`Wstdio_*`, `Wprintf_*`) | refinement to a stream of characters; induction over the bytes/pieces with the decoder state |
| C102-C104, C126 | setvbuf, fopen, freopen, fclose, remove, rename, stat, lstat, fstat against an arbitrary host that answers each request after seeing all earlier ones (`Files_*`) | invariant over all call histories: open descriptors = descriptors of live streams |
| C105 | hypotf (`Hypotf_*`) | doubles exact for the squares; monotone root against midpoints; TwoSum and residual signs over Flocq; at the overflow threshold a finite search plus residues mod 64 exclude sums of two squares just below it |
| C106, C107 | expf and exp2f (`Expf_*`, with `Approx`, `Ferr`, `Elem_*`) | ln 2 enclosed by Taylor bounds; forward error analysis of the double computation by a reflective checker over 2^-160 units; polynomial against Taylor polynomial by certified subdivision in Q (`Subdiv`); spec `nearly_rounded`/`faithful` in `Elem_Spec.v` |
| C108-C110 | logf, log2f, log10f (`Logf_*`) | relative error of the quotient and the atanh kernel operation by operation (Flocq relative error theorem); atanh enclosed by its Taylor polynomial, the kernel polynomial by `Subdiv`; ln 10 and the hard-coded arguments by rational enclosures |
| C111-C114 | log1pf, atanhf, asinhf, acoshf (`Logf_Model`, `Loginv*`) | relative error of each intermediate in units of 2^-53 (`rel`); the two branches share one lemma each (`ln_far`, `kernel_near`); specified through tanh, sinh, cosh of the stdlib; hard-coded arguments by rational enclosures |
| C115-C118 | expm1f, coshf, sinhf, tanhf (`Hyperf*`) | relative error through each operation (`relr`); argument ranges: kernel, scaled, certain overflow (`huge`); the cancellation in 2^n e^r - 1 bounded on each side of the branch; `Subdiv` for the polynomial; NaN refuted |
| C119 | cbrtf (`Cbrtf_*`) | the integer guess as a piecewise linear function compared with the cube root by tangents and chords of the cube; exact error recurrence of Halley's step; relative rounding errors |
| C120 | atanf (`Atan_Num`, `Atanf_*`) | derivative of the rational approximation against 1/(1+x^2) by `Subdiv`; pi from a Machin formula and the Taylor polynomial of atan; relative error of Horner's rule with positive coefficients |
| C121, C122 | asinf, acosf (`Asin_Num`, `Asinf_*`) | derivative of the polynomial against 1/sqrt(1-t^2) on five intervals by `Subdiv`; 1 - abs x and its half are exact (Sterbenz); acos x = 2 asin sqrt((1-x)/2); the tabulated arguments compared with the enclosure of the value |
| C123-C125 | sinf, cosf, tanf, rem_pio2f (`Pi_Num`, `Trig_Num`, `Trigf_*`) | 288 bits of pi/2 from the Taylor polynomial of atan; distance of every float from every multiple of pi/2 by a lattice certificate per exponent (two reduced basis vectors); Cody-Waite reduction below 2^27 pi and the 96-bit window of 2/pi above, both against X - K pi/2; the kernels against Taylor polynomials of sin and cos by `Subdiv`; the tabulated arguments compared with the enclosure of the value |
| C127-C130 | __mulsc3, __muldc3, __divsc3 (`Complex_*`), __powisf2, __powidf2 (`Powi_*`) | classes of bit patterns through Flocq's operations; (AC-BD)^2 + (AD+BC)^2 = (A^2+B^2)(C^2+D^2) for the recovered infinities, signs of the products for the absence of NaNs; products of floats exact in double, relative errors; loop invariant counting roundings, (1+u)^k bounded by 1/(1-ku) |
| C131 | csqrt, csqrt_ (double; `Csqrt_*`); csqrtf is not modelled | relative errors of the straight-line computation; B/(2 sqrt((A+M)/2)) = sqrt((M-A)/2) for the smaller part; classes of bit patterns for Annex G |
| C132 | vasprintf, asprintf (`Asprintf_*`) over the formatter of C47; malloc and free are parameters, malloc constrained by `malloc_ok` | composition of two vsnprintf calls |
| C133, C134 | `__divdc3` (division.h at double; `Cdiv_*`) | logb/scalbn of C70, C71 put the larger part of the divisor in [1, 2) up to 2^-1075; Cauchy-Schwarz bounds the rounding errors of the numerators by |z||w|; classes of bit patterns for Annex G |
| C135 | strerror (`Strerror_*`); the pointer is represented by the text | lookup in the table of cases; pairwise comparison of the 51 messages lifted by `forallb_forall` |
| C136 | perror (`Perror_*`) over the formatter of C82; the pieces written are observed, stderr itself is not modelled; the words holding the strings are readable as wholes | instance of C82_formatter_partial |
| C78 | strtod and strtof (`Strtod_*`): text, the Eisel-Lemire product with the table of 5^k, the big-integer comparison for long texts, hexadecimal constants, inf and nan | induction over the text; the table certified entry by entry against exact powers of five; nonexistence of near-halfway decimals up to 18 digits by a certified Stern-Brocot search per exponent (`Strtod_Gap_*`); double rounding by `Midpoint`; refutations by computation |

## 3. Trusted base

Coq's kernel (and `coqchk`), the reading of the C source into the model (cited per definition), and the axioms that
`Print Assumptions` lists per theorem (section 5).  No axioms of our own.

Assumptions about the compiler and machine that the models make explicit:

* Signed overflow is `UB` (the Makefile passes no `-fwrapv`), but a left shift of a negative or overflowing signed
  value wraps, and a right shift of a negative value is arithmetic, as GCC and Clang document.
* NaN results of native float operations are *some* quiet NaN; theorems do not fix payloads.
* `copysignl`, conversions between `float`, `double` and the 32/64-bit integers are the IEEE operations of the
  WebAssembly machine (`HW_*`, defined from Flocq).
* The word-at-a-time string loops read aligned 8-byte words; the model reads the eight bytes and answers `UB` if
  any is unmapped.  Theorems therefore assume that words overlapping the string are mapped (true of wasm pages).
  `restrict` is the hypothesis that the ranges are disjoint.

## 4. Not modelled

`malloc.c` (vendored dlmalloc), `strtold`, the strtod call at the end of scanf's floating conversions (the text is the result), transcendental libm functions other than those of section 2, `setjmp` (assembly), `difftime`, `vfwscanf`, and the WASI host
itself (its answers are arguments of the modelled functions).  Static result buffers are returned values.

## 5. Print Assumptions

Every theorem about ctype, UTF-8/16, 128-bit integer shifts/products/division, strings, integer parsing, searching
and sorting, wide strings and wide streams, process control, the calendar, the WASI layer, printf, streams and scanf is closed under the global context.  Theorems that mention Flocq's reals (C14-C23, the mathematical functions, strtod and wcstod) list the
standard library's

* `ClassicalDedekindReals.sig_not_dec`, `ClassicalDedekindReals.sig_forall_dec`,
* `FunctionalExtensionality.functional_extensionality_dep`,
* `Classical_Prop.classic`

and nothing else.
