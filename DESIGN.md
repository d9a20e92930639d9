# Formal model of c3lang/c3c — design

## 1. Approach

The model is written in Coq 8.16.1 (`rocq/theories`), as small total Gallina
functions following the C sources of the compiler (`/repo/src`) and the C3
sources of the standard library (`/repo/lib/std`) function by function.  Every
definition cites the file and lines it models, with the simplifications made.

For each area `X` there are up to four files:

* `XModel.v`  – the model of the code (no proofs);
* `XSpec.v`   – a small independent specification (what a user would say);
* `XProofs.v` – lemmas;
* `XThms.v`   – the property theorems only, each `exact lemma.` followed by
  `Print Assumptions`, with `Example`s showing the hypotheses are satisfiable.

Machine integers are `Z`/`N` with explicit `mod 2^64` (or the width at hand)
wherever the code can wrap.  Undefined behaviour, failed assertions and
out-of-bounds accesses are explicit outcomes (`None`/error constructors), never
default values.  Loops are structural recursion or fuel with an explicit
out-of-fuel result excluded by the theorem.

If a property is false of the faithful model we keep the property and prove
`..._refuted` with a witness, and prove the strongest true part as
`..._partial`.  Those are findings about the code (section 4).

## 2. Trusted base

* Coq's kernel (and `vm_compute`, used for closed witnesses and finite sweeps).
* The reading of the C/C3 code into Gallina (not machine checked).
* Axioms: see section 5; each `*Thms.v` prints the assumptions of each theorem.

## 3. Plan per property

| Id | What is modelled | How it is proved |
|----|------------------|------------------|
| C01 | `Int128` as a pair of 64-bit words, `i128_*` and `int_*` of bigint.c | each function refines the `Z` operation mod 2^128, then `i128_extend` = wrap into the type |
| C02 | `clz64` bit tricks, `i128_udivrem` loop, `sdiv`, `int_div` | loop invariant on (op1, op2, div, shift); INT_MIN/-1 is checked separately |
| C03 | `i128_srem`, `int_rem` | expected false for a negative divisor: refutation + partial theorem |
| C04 | shl64/lshr64/ashr64/int_shl64/int_shr64 | case split on the amount, against `Z.shiftl/shiftr` wrapped |
| C05 | `int_compare`, `binary_op_matches_res` | against `Z.compare` of the denoted values |
| C06 | `llvm_emit_int_comp_raw` as generated icmp/and/or expression | evaluation of the emitted comparison = comparison of values, all widths |
| C07 | `int_fits`, `int_conv`, `int_bits_needed` | against value ranges in `Z` |
| C08 | `parse_integer` digit loop with its overflow tests | digits denote value; refutation for decimal |
| C09 | `i128_to_string`, `i128_from_str` | positional representation lemma |
| C10 | comment scanner over a byte list | against an inductive nesting grammar |
| C11 | string scanning, escape decoding | escape/unescape round trip, rejection |
| C12 | hex/base64 literal decoding | against RFC 4648 spec |
| C13 | bidi counter | refutation + what the check does establish |
| C14 | Pratt loop with the rules table | every writing of a tree by grammar.y's levels parses to it, every accepted text is well nested and in order; induction on derivations and on fuel |
| C15 | `type_find_max_num_type` | finite sweep over all type kinds lifted to a theorem |
| C16 | widening/narrowing rules over expression trees | induction on expression trees |
| C17 | the two tables, the checker's walk over types and the routines that convert further | sweep over the tables, induction on the fuel of the checker |
| C18–C20 | layout loops over member lists | loop invariants |
| C21–C23 | switch checking and the three lowerings | against "the case containing the value"; refutations |
| C24 | const initializer concatenation | against list append |
| C25 | expr_const_compare | case analysis; refutations for NUL strings, faults |
| C26, C27 | symbol table (chained), pointer tables (linear probing, chained), declaration table | a generic theory of linear probing (a slot on the way from an entry's home to the entry is never empty); refinement to a finite map by induction over histories |
| C28 | bump allocator, string copies, numbered object arenas, page commits | invariant over allocation and write sequences |
| C29 | `TaskModel`: the worker loop and `taskqueue_run` (both variants) of taskqueue.c as a machine in which any thread may take the next step; threads may fail to be created. Tasks are opaque (their own interaction is not modelled); a task that never returns is not modelled | `TaskThms`: invariant over all schedules (mutual exclusion, submitted = queued + carried + finished); progress; a decreasing measure bounds every schedule; Windows variant up to 64 threads, refuted above |
| C30 | json.c: whitespace and comments, numbers, strings, json_parse, arrays, objects | grammar as inductive relations; completeness by mutual induction on derivations, soundness by induction on fuel, fuel bound, bounds of the two string passes; refutations by computation |
| C31–C34 | codecs over byte lists with explicit buffers (CodecModel.v, UrlModel.v); the specification works on bit strings (CodecSpec.v) | induction over groups; finite checks of the tables |
| C35 | lib/std/core/conv.c3 and the allocating conversions of string.c3 over byte and code unit lists with explicit buffers and any allocator content (UtfModel.v) | against RFC 3629 and RFC 2781 encoders (UtfSpec.v); induction over the input |
| C36–C43 | collections as state machines | refinement over operation histories |
| C44–C48 | sorting/searching over arrays with explicit indices | loop invariants, permutation, stack bound |
| C49, C50 | `ChanModel`, `ChanUModel`: push, pop, close of BufferedChannel and UnbufferedChannel by any number of threads, each a list of operations, as machines in which any thread may take the next step; mutexes block, a condition variable wakes one chosen sleeper, all of them, or any one spuriously. Straight-line code inside a mutex is one step per statement group. Not modelled: failing mutex/condition calls, init/destroy racing with use | `ChanThms`: linearizability against a sequential bounded queue (`ChanSpec`), FIFO, close, no lost wake-up (invariant: a sleeping sender implies elements plus pending wakers fill the buffer), termination up to spurious wake-ups. `ChanUThms`: rendezvous, progress and termination for one sender and one receiver; refutations |
| C56 | the machine type of structs and unions, LLVM's struct layout as specification, type trees | induction on the type tree |
| C57 | the instructions emitted to read, write and update members of integer and array containers, LLVM shifts and masks as arithmetic | bit-level: testbit extensionality; induction on bytes |
| C58 | the constant folder for bitstructs against the emitted initialisation | induction on the initialisers |
| C59 | indexing, slicing, assignment, designators, $foreach and emission of constant arrays | each against the list of elements; refutations |
| C51–C55 | the whole of lexer.c over a cursor that fails outside the buffer; `file_read_all` | invariants over the scan; specifications by token texts |
| C60 | $switch and constant nextcase over expr_const_in_range | induction on the cases; refutation for late ranges |
| C61 | print_json, json_map_set/get, add_target_project, add_libraries_to_project_file | induction on values: the printed text is derivable in the RFC grammar of C30, hence read back; refutations by computation |
| C62 | sema of all statements with defer chain, jump targets, dead code, macros; code generation of the result | simulation between a big-step reference semantics and the lowered code, mutual induction on statements, lists, cases and expressions; refutations by computation |
| C63 | as C62: jump_end, has_break, missing return | side invariants of the same induction; refutations by computation |
| C64 | scope depth, ASSERTs on the defer chain | mutual induction; refutation by computation |
| C65 | `AlcMem`, `AlcAModel`: byte memory, `ArenaAllocator` acquire, resize, release, mark, reset, with the block headers stored in the same memory; `AlcSpec` the client ledger | induction over the history with an invariant that ties the headers and the high-water mark to the ledger |
| C66 | `AlcBack` a backing allocator driven by an arbitrary oracle, `AlcOModel` `OnStackAllocator` and its chunk list | the same ledger; induction over the history, invariant over buffer blocks, chunks and live backing regions |
| C67 | `AlcTModel`: `TempAllocator` (acquire, resize, release, pages, derive, reset, destroy) and the chain of pools over an arbitrary backing allocator | the client ledger of C65; invariant that places each allocator in a backing region, orders nested allocators in the same region, and puts each block in an allocator, a page or alone in a region |
| C68 | `QoiModel`: encode and decode of qoi.c3 with their buffers, palette and runs | the encoder is shown to emit a list of chunks whose meaning (a small chunk-level semantics) is the image; the decoder is shown to give chunks that meaning; induction over the pixels and over the chunks |
| C69 | as C68 | `QoiSpec` states the published format: chunk bytes, chunk meaning, running array; invariant relating the encoder's palette to the array of a decoder that records every pixel |
| C70 | as C68 | bound of five bytes per drawn pixel, by induction over the pixels |
| C71 | `BigModel`: BigInt of bigint.c3 with its 256 words, lengths, carries and assertions | `denotes` (BigSpec) relates words and integers; carry invariants by induction over the words; sign analysis for the overflow tests; canonical form gives equality |
| C72 | as C71 | invariant of the row of partial products (value, zero words above); overflow exactly when the product needs more words |
| C73 | as C71 | schoolbook division by one word, induction from the highest word; the multi-word division is modelled in full and refuted by computation |
| C74 | as C71 | digits by repeated division, Horner value of the reversed digits; reading by an invariant on partial sums and multipliers |
| C75 | as C71 | bitwise functions commute with splitting off words; sign extension through the two's complement of 8192 bits |
| C76 | as C71 | invariant of one pass of at most 32 bits, composed; the value modulo the words in use |
| C77 | as C71 | invariant r^2 <= n < (r + 2^p)^2 over bit positions |
| C78 | as C71 | Euclid with a halving measure, on top of C73 |
| C79 | as C71 | Barrett reduction with its error bound (quotient at most one too small for one word), square-and-multiply invariant |
| C80 | `LexModel` number scanning | the flex rules of c3.l transcribed as `official`, the accepted language as `number` (LexNumSpec); equation and inversion lemmas for each scanning loop, composed in both directions |
| C81 | `RtModel.udivmod`, `divti3`, `modti3` on 64-bit words | spec: `/`, `mod`, `Z.quot`, `Z.rem`; loop invariant n = (q:r) form over the iterations left, one lemma per entry branch by leading bit positions |
| C82 | `RtModel.mulddi3`, `multi3` | every wrapped sum bounded, then exact product; modulo 2^128 |
| C83 | `RtModel.lshrti3`, `ashrti3`, `ashlti3` | two-word shift = division or multiplication by 2^n; two counterexamples |
| C84 | `RtModel.round_digits`, `pack`, `float_from_*` returning the bits | `rounds_to` (RtSpec): the bits mean y, no m*2^e with p digits is closer, ties even; sticky-bit lemma, rounding to nearest even, decoding of the packed fields |
| C85 | `RtModel.fixuint`, `fixint` on the bits | decoded mantissa and exponent give the truncated value |
| C86 | `HashModel` as for C87 to C89 | corollary: each digest is the one of a functional specification |
| C87 | `HashModel.transform256`, `update256`, `final256` with 32-bit counters and a checked buffer | `HashSpec.SHA256`, with constants as roots of primes; invariant: state is the chain over the whole blocks, buffer the rest |
| C88 | `HashModel.transform1` (rotating registers, 16-word window), `update1`, `final1` | `HashSpec.SHA1`; register k of the standard is register (k + 4t) mod 5 at step t; window lemma |
| C89 | `HashModel.body5`, `update5`, `final5` | `HashSpec.MD5`; as C88 with four registers |
| C90 | `HashModel.hmac_init`, `hmac_update`, `hmac_final` over a record of the three algorithms | one proof over an abstract hash, three instances |
| C91 | `HashModel.pbkdf2`, `derive_loop` with an int counter | induction over the iterations; endless loop by invariant |
| C92 | `HashModel.crc32_*`, `crc64_*`, tables copied from the source | `HashSpec.pmod` division over GF(2); each table entry checked to be a remainder, then linearity; CRC-32 through bit reversal |
| C93 | `HashModel.adler_*`, `fnv*`, `crc*` | each step injective in state and in byte; tables injective in one byte; odd multiplier invertible |
| C94 | `HashModel.rc4_*`, `safe_compare` | `HashSpec.RC4` relation over state functions; the key stream does not depend on the data |
| C95 | `sema_generate_parameterized_name_to_scratch`, `type_mangle_introspect_name_to_buffer`, `scratch_buffer_append_module` as functions to texts over an inductive type of canonical types; the table of instances as a list found by text | the mangled name of a type is a prefix code: decoding by its first $-free segment; induction over types, modules and arguments together |
| C96 | `scratch_buffer_set_extern_decl_name`, `$ct.` names | the symbol is decoded into the module and the dotted parts |
| C97 | the search loops over a string as a list of bytes, with checked accesses | loop invariant: no earlier (later) occurrence |
| C98 | `split`, `split_to_buffer`, `Splitter.next`, `join`; the count, the capacity and its doubling; `max - 1` in 64 bits | relation `Cut` (leftmost cutting), total and unique; induction over the length of the rest |
| C99 | the trimming loops; case conversion as a map | loop invariants |
| C100 | `to_integer` for a type given by sign and width, wrapping arithmetic | grammar of numbers as a relation; induction over the digits |
| C101 | a string as an optional block of cells (written or not), its length; all operations with checked reads, writes and moves; `reserve` with its doubling loop in 64 bits | representation invariant: the first `len` cells hold the text; each operation refines its effect on texts; induction over histories |
| C102 | `replace` and its loop | loop invariant: the part read is a glueing of pieces with the needle, the part written the same pieces with the replacement |
| C103 | `equals`, `less` | induction over the index |
| C104 | `append_chars`, `insert_chars_at` with the argument in the memory of the string | the downward copying loop equals a move; the gap keeps the part readable |
| C105 | `normalize` with its in-place loop, checked reads and writes, `volume_name_len`; POSIX and WIN32 | the loop refines a function on elements (text kept, bytes no longer needed, bytes to be read); that function commutes with walking |
| C106 | `start_of_base_name`, `basename`, `dirname`, `parent`, `extension`, `has_extension`, `append` for POSIX | the last separator, from the search theorems of C97 |
| C107 | `ntoa`, `ntoa_format`, `out_reverse`, `pad`, `adjust` over a state of flags, width, precision, first fault and bytes written | the digits loop against a numeral relation; the text as sign, prefix, zeros, digits |
| C108, C109 | `vprintf` with its parsing on checked reads, `out_str`, `out_substr`, `%h`, `%s` with its measuring run | induction over the pieces of the format; mutual induction over values for `%s` |
| C110 | `out_char` | bit operations as sums |
| C111 | `Formatter.out` with `out_buffer_fn`, `@wrap_bad`, `@report_fault` | a property of computations closed under sequence, fault handlers and the restoring of flags |
| C112 | the same model, a read outside of the format being an outcome of its own | a Hoare logic on the same monad, with the index as invariant |
| C113 | `matches_subpath`, the hierarchy of modules, `module_inclusion_match` on texts | paths as lists of words; injectivity of writing them; suffix and prefix lemmas |
| C114, C115 | the whole of name resolution for names with and without path: function scope, file, module, imports, global table, visibility, ambiguity | soundness and completeness of every stage against a relation `Candidate` |
| C116 | the same | the folds over imports and candidates are characterised by the list they pick from, up to permutation |
| C117 | `damerau_levenshtein_distance` on checked reads, with an arbitrary initial table | loop invariant on every cell |
| C118 | `x64_classify` with all its parts on laid out types, failed assertions as `None` | induction over nested types against the classes computed from the flat list of scalars; merging is a join |
| C119 | `x64_classify_argument_type`, `x64_classify_parameter`, `c_abi_func_create_x64`, `x64_classify_return` | induction over parameters against `assign` on the demands of the types |
| C120 | `x64_bits_contain_no_user_data`, `x64_get_int_type_at_offset` | induction over nested types against the bytes of the scalars |
| C121 | `x64_get_fp_type_at_offset`, `x64_get_sse_type_at_offset`, the pair assertion | exactness of the search for a float where a scalar starts; case analysis of an eightbyte of floats |
| C122 | `ipv4_from_str`, `to_string`; `int` wraps | runs of digits by induction, four groups against a grammar |
| C123 | `ipv6_from_str` with the assertion and array bounds | the loop restated group by group; counting groups against the length of the zero stretch |
| C124 | the ten class predicates | linear arithmetic over bytes against address blocks |
| C125 | `ReadBuffer` over any stream (bytes still to come, sizes of deliveries) | what is pending in buffer and stream, step by step |
| C126 | `WriteBuffer` over any sink | taken and buffered bytes are the bytes written |
| C127 | `ByteBuffer` with grow, shrink and bounds checks | simulation of a queue with one byte of undo |
| C128 | `ByteWriter` growing and fixed, `read_from` | buffer is view and free bytes; induction over the stream |
| C129 | `Scanner.scan`, `flush` | window of the buffer and rest of the stream; the delimiter is in one or the other |
| C130 | `LimitReader` | pending bytes are a prefix |
| C131 | `MultiReader` | pending bytes are a concatenation |
| C132 | `TeeReader`, `MultiWriter` | invariants over histories; induction over writers |
| C133 | `ByteReader` | pending bytes are a suffix |
| C134 | `copy_through_buffer` | induction over the stream |
| C135 | `readline` | induction over the bytes |
| C136 | `read_all`, `read_fully` | induction over the stream |
| C137 | `read_varint`, `write_varint` for 32 bits | digits to base 128, disjoint bits add |
| C138 | `read_be_*`, `write_be_*`, byte arrays | digits to base 256 |
| C139 | `SimpleHeapAllocator`: free list, split, insertion with merging, requests to the provider | every byte of a region is covered by exactly one block, kept by every call |
| C140 | the same, with the bytes stored by the program | two calls deep recursion suffices; a new block is clear of all others |
| C141 | the same | sorted with strict gaps, kept by every call |
| C142 | `Lcg*`, `Pcg*`, `SimpleRandom` as functions on residues | closed form of n steps; 2-adic valuation of 1 + a + … + a^(n-1); every residue reached by lifting |
| C143 | `Mcg*` with their seeding | the same for a ≡ 5 modulo 8 |
| C144 | `Sfc*`, `Msws*` on four words | the counter; each assignment can be undone |
| C145 | `next` with rejection, `next_in_range` | first accepted output; a word that is accepted is reached |
| C146 | conversions between widths, `@random_value_to_bytes`, `Sfc128Random.next_long` | induction over doublings and over the buffer |
| C147 | `seeder` in full | each step of the mixing is one-to-one |
| C148 | pages as lists, blocks beside them; every public function but `free` | invariant: at each address the blocks held number at most the used parts of pages, and the pages at most one |
| C149 | the same, with the memory as a function | case analysis on the three ways a resize goes |
| C150 | `analyse_index`, `emit_index`, words of 64 bits | case analysis on signs and constants |
| C151 | `analyse` (all four range kinds), `emit`; the meaning of a range is `first`, `count`, `inside` | the result of the analysis means the same range; the emitted checks decide `inside` |
| C152 | the four ways to slice a constant | the constant range is `first`, `count`; list lemmas |
| C153 | `known_length` | case analysis |
| C154 | `assign`, with the loop and the unrolled form | induction on the loop |
| C155 | `shift_distance`, `check_shift` | case analysis on signs |
| C156 | `from_ordinal` | case analysis on signs |
| C157 | both pools as one transition system; a critical section is one step | invariant: pushed = queue + running + ended |
| C158 | the same | invariant: a worker leaves only an empty queue |
| C159 | the same | a measure that each step of a worker and each wake-up lowers |
| C160 | the same | invariant: nobody waits while the queue is not empty; a measure |
| C161 | the allocator as operations on addresses, with the marks the program holds | invariant: chunks end at or below `used` and below every later mark; pages are ordered by their marks |
| C162 | the same, with the memory | from the invariant: what is copied lands in the new block |
| C163 | the same; unlinked pages are kept in a list | invariant: pages have marks above 0, and none is unlinked |
| C164 | from_time with the rounding of the double, and gmtime as the C library defines it | dates correspond to day numbers one to one; the successor of a date has the next number |
| C165 | from_date over timegm | the same correspondence |
| C166 | add_months with its three cases | the three cases are one division by 12 |
| C167 | the operations on TzDateTime | invariant over histories |
| C168 | the comparisons, diff_years | the day of the year orders dates in years of equal length |
| C169 | format over the model of printf (C108) | every format is a row of items that print as their digits |
| C170 | the same | the layouts have fixed places |
| C171 | the entries as cells, unwritten ones apart, over the model of List (C36) | the first size cells are the sequence; induction over histories |
| C172 | the same, with the contracts | case by case on the operation |
| C173 | the iterator over the model of the decoder (C35) | the current byte is the start of the nth code point; induction over histories |
| C174 | the same | induction over the rest of the string |
| C175 | the array row after row in memory; the slices of slice2d.c3 and array.c3 | rectangles of rectangles are rectangles; a row of a slice is a part of a row in memory |
| C176 | the functions of range.c3 with the wrapping of each arithmetic type | modular arithmetic per width; the condition on the ends is shown to be exact |
| C177 | Formatter.print and the to_format functions over an output that fails after some bytes | each printer writes a text and returns a number; sequencing concatenates the texts |
| C178, C179 | read_row, skip_row, free and @each_row of csv.c3 over the models of readline and split | induction over the lines; C98 and C135 for each line |

Nothing in the list is judged inexpressible; liveness under a fair OS scheduler
is outside the model (only reachability/safety is stated).

## 4. Findings

Every entry is a theorem `…_refuted` about the faithful model (witness checked by the kernel).

* C02: folding `MIN / -1` leaves the range of the type.
* C03: the sign of a folded remainder follows the wrong operand for negative divisors.
* C06: comparisons through alias types (`isz`, `CInt`, …) take the unsigned path.
* C08: decimal literals of 2^127 and more are accepted as negative or as other values; `0xF…Fi8` is -1; suffix widths 1, 2, 4 crash.
* C10: a block comment that is never closed silently drops the rest of the file.
* C11: `"\x80"` and above give two UTF-8 bytes; `\U` above 10ffff is accepted.
* C12: a base64 literal that follows other bytes is left uninitialised; unpadded base64 reads past its end.
* C13: U+202C closes and re-opens, so balanced embeddings are rejected.
* C14: `+++` is documented (grammar.y, enums.h) at the level of `+` but parses at the level of `*`.
* C15: grouping matters for typedef types: with `typedef A = inline int` and `typedef B = inline int`, `A` and `A` and
  `B` have the common type `int` when grouped to the left and `A` when grouped to the right (`C15_associative_refuted`). The result is
  not as wide as both for an integer and a float (`int128` + `float16` is `float16`) nor for an integer and a
  narrower typedef type (`C15_width_refuted`).
* C16: a negative signed value is widened to an unsigned type without a cast (`ushort y = x` with `ichar x = -1` gives
  65535), and so is a negative constant (`ulong y = -1`), although `uint y = -1` is refused (`C16_widening_refuted`,
  `C16_constant_widening_refuted`). The 64-bit length of a slice is narrowed to `int` without a cast
  (`C16_narrowing_operands_refuted`). `(a + b)!!` is taken for widening although `a + b` is refused as ambiguous
  (`C16_widening_unambiguous_refuted`).
* C17: an explicit cast of an integer vector to a vector of an own (typedef) integer type, or to a vector of pointers,
  type ids or faults, is accepted and then stops the compiler (`C17_accepted_cast_is_done_refuted`,
  `C17_int_vector_to_pointers_refuted`): the conversion does not look through typedefs of elements, and misses a return.
* C18, C19: offsets are kept in 32 bits and wrap: `struct { char[4294967295] a; int b; }` is four bytes with both members
  at offset 0 (`C18_overflow_refuted`), the same union has the size 0 (`C19_overflow_refuted`).
* C18: `struct S @packed @align(16) { char a; int b; }` stops the compiler on an assertion (`C18_assert_refuted`).
* C56: a packed struct with @align, or a union with a member of an over-aligned type, has a machine type of lesser
  alignment; the struct around it is taken for naturally aligned, its paddings are left out, and the machine type has
  other offsets and another size (`C56_nested_packed_refuted`, `C56_union_refuted`).
* C57: assigning a member of a `char[]` bitstruct that does not end with a byte stores the byte before the new bits were
  or-ed in, so the value is lost (`C57_array_lost_value_refuted`; the project's own golden file records the code); a
  member inside a later byte also clears the bits above it (`C57_array_lost_neighbour_refuted`).  A member whose size is
  above 8 and not a power of two stops the compiler in an array of the other byte order
  (`C57_array_assert_refuted`).  `int[4]` is accepted as container but its elements are used as if they were bytes
  (`C57_wide_array_refuted`).  A designated initialiser around a bitstruct of the other byte order forgets the swap
  (`C57_nested_init_refuted`).
* C58: for `char[]` constants and run-time initialisation differ, for the reason above (`C58_array_same_refuted`); with
  @overlap a constant or-s the values, run-time code keeps the last one (`C58_overlap_refuted`).
* C24: an array that stores zeros among its elements, as `int[1]{} +++ int[1]{1}` does, stops the compiler when it is
  concatenated with an untyped list (sema_const.c:424-427, `C24_untyped_zero_refuted`) or, for `char`, with a string
  (number.c:90, `C24_bytes_zero_refuted`); so does a struct after an untyped list (`C24_untyped_struct_refuted`). The
  element after an empty slice is not cast to the element type (sema_const.c:222-231, `C24_append_empty_refuted`).
* C59: a constant range is checked by start and by length but not by end, so `"abcd"[2..5]` is accepted and reads after the
  string (`C59_range_refuted`); an index is cut to 32 bits before the check (`C59_index_check_refuted`); a slice of a sparse
  array keeps the old indices (sema_expr.c:3832-3851, `C59_slice_sparse_refuted`); a slice of a string stops at a NUL
  (`C59_slice_nul_refuted`); `$foreach` skips slices of zeros and rejects sparse ones (`C59_foreach_refuted`); a sparse
  vector with a gap becomes an LLVM struct (`C59_emitted_vector_refuted`).
* C25: `!=` of two constant faults is folded to the result of `==` (number.c:138-140, `C25_fault_refuted`); constant strings are
  compared by strncmp, so up to the first NUL (number.c:161, `C25_nul_refuted`); a string against an array that stores a zero
  stops the compiler (`C25_zero_array_refuted`).
* C60: integer literals are resolved by the parser, so `$case` ranges of literals are still looked at after a match and replace
  it: `$switch (5)` with `$case 5:` and then `$case 1..10:` runs the second (sema_stmts.c:2495, 2565, `C60_switch_refuted`).
* C26: SymtabEntry.key_len is uint16_t (symtab.c:11) while lengths are uint32_t: a spelling of 65536 bytes or more is never found again, and a short spelling can be taken for a long one (theorems `C26_…_refuted`; a 65537-byte identifier that is given the handle of `x` is exhibited).
* C27: stable_clear (symtab.c:451) clears capacity * sizeof(Entry) bytes (24 each) although stable_resize allocated capacity * sizeof(SEntry) (16 each); it is not called anywhere and is not modelled.
* C28: calloc_arena (malloc.c:50) wraps for requests above 2^64 - 16 (theorem `C28_no_overlap_refuted`).
* C29 (Windows): `WaitForMultipleObjects` is called with as many handles as threads; above MAXIMUM_WAIT_OBJECTS (64) it fails at once and the result is not checked, so `taskqueue_run` destroys the lock and returns while tasks are still running (`C29_windows_refuted`).
* C50: a push holds `send_mu` while it waits; a second push locks `mu` and then blocks on `send_mu`, so the receiver can never lock `mu`: permanent deadlock (`C50_two_senders_refuted`); two receivers likewise (`C50_two_receivers_refuted`).
* C50: the wait in `UnbufferedChannel.push` is not in a loop, so a spurious wake-up returns success before the value was taken; the next push overwrites it (`C50_spurious_wakeup_refuted`). A close after the value was taken makes push report CHANNEL_CLOSED (`C50_close_refuted`). `init` uses `allocator::alloc` and never sets `closed` (`C50_uninitialised_refuted`).
* C30: the JSON reader drops the sign of numbers (`-1` is read as 1), rejects exponents, turns `\u1234` into one byte and cuts strings at `\u0000`. It accepts trailing text after the first value (`1 2`), a blank file (null), `-`, `01.` and unfinished comments without an error. A text ending inside `"\u` is read past its end (json.c:153-166 reads four bytes).
* C61: the JSON writer prints nothing for null (a `"a": null` entry makes the rewritten project file unreadable), dereferences NULL for a null in an array, escapes no strings (`C:\\new` comes back as `C:`, line break, `ew`) and cuts numbers to six decimals; json_map_set doubles a member that exists; add_libraries_to_project_file dereferences NULL when the project has no "dependencies".
* C62: `if L: (true) { break L; }` marks all code after the `if` unreachable (sema_stmts.c:1847-1854 look at the jumps of the taken branch, not at
  flow.has_break): the enclosing defers are not run. `while (false) A;` and `for (...; false; i++) A;` run A (and i++) once: loop_type_for_cond
  (llvm_codegen_stmt.c:469) gives LOOP_NONE, which emits the body without looking at skip_first. A macro that does not return makes the code after
  `c || @die()` unreachable (sema_expr.c:2652 sets jump_end for the whole statement; only `??` restores it).
* C63: for the same two reasons `fn int f() { if L: (true) { break L; } }` is accepted and runs off its end, and the `return` in
  `bool ok = c || @die(); return 5;` is dropped.
* C64: every empty case but the last leaves its scope open (the `continue` inside SCOPE_START at sema_stmts.c:2407), so a switch with about 256 empty
  fall-through cases stops the compiler with "Too deeply nested scopes".
* C65: `ArenaAllocator.resize` of a block that is not on top copies the old size, also when shrinking: the copy can run past the end of the
  buffer. In safe mode `release` and `resize` stop the program when the arena is exactly full, since `&self.data[self.used]` is bounds-checked.
* C66: `OnStackAllocator.acquire` ignores the request for zeroed memory when the block fits its buffer. `resize` of a buffer block copies
  the old size, also when shrinking. The end of a block of almost 2^64 bytes wraps around, so that such a request succeeds.
* C67: `TempAllocator.acquire` with an alignment above 32 that falls back to a page computes the size of the page as
  `aligned_offset(32 + size, alignment)` but places the data at `aligned_offset(32, alignment)`: the data overruns the page, for small sizes it
  lies wholly behind it. `resize` of the topmost block in place ignores the alignment. `_realloc_page` unlinks the page before the
  allocation that may fail: the page leaks, and resizing the block again follows a null pointer. `reset` over two levels uses the inner allocator after
  the outer one, in whose memory it lies, was freed. Sizes near 2^64 wrap around.
* C68: `qoi::encode` computes `uint pixels = width * height`, which wraps: an image described as 641 x 6700417 is accepted with the bytes of one
  pixel, and the resulting file is refused by `decode` (which multiplies in 64 bits).
* C69: `qoi::decode` does not record the pixel of a run chunk: a file that begins with a run of the start pixel and later refers to it by index
  decodes to a transparent pixel (the format puts every seen pixel in the array).
* C70: `qoi::decode` does not check the position against the data: with fewer chunks than the header announces it reads past the end of the data.
* C72: `BigInt.mult` stops with "Multiplication overflow" for the representable product -2^8191 (for example 2^8190 * -2).
* C73: `BigInt.multi_byte_divide` is wrong: its constants are 0x10000000 instead of 0x100000000 and the words of the partial dividend are reversed:
  66291157341591717956415270424 / 12716005052645315947 gives 918238979 instead of 5213206275; (30 * 2^32 + 7) % (3 * 2^32 + 1) gives 55340232113754472443,
  which is larger than the divisor. With a dividend of 256 words it reads one word past the array.
* C74: `BigInt.to_string_with_radix` stops for -2^8191; `init_string_radix` refuses "-0" as OVERFLOW and reads the first character of the empty string.
* C76: `BigInt.shl` keeps the number of words: 1 << 32 is 0. `BigInt.shr` is the identity because `shr_this` takes its receiver by value.
* C77: `BigInt.sqrt` of 0 returns a number of length 0, which is neither zero (`is_zero`) nor equal to 0; above 2^8190 it stops with an assertion.
* C78: `BigInt.gcd` inherits the division by several words: gcd(3 * 2^32 + 1, 30 * 2^32 + 7) is not 1; `lcm` of 0 and 0 divides by zero.
* C79: `BigInt.mod_pow` stops with an assertion whenever an intermediate product is 0, for example 6^2 mod 3, and for modulus 1. The macro `less_or_equal`
  has an unnamed parameter and cannot be used.
* C80: the lexer accepts "_" directly before the decimal point and before an exponent ("1_.5", "1_e5"): the trailing "_" is only looked for at the end of the number. It also accepts "1." and a hexadecimal
  fraction without exponent, which c3.l does not have.
* C83: `__ashrti3` shifts the halves as `ulong`, so a negative number comes back positive (-2 >> 1 is 2^127-1); `__ashlti3` clears the lower half before it uses it, so any shift by 64 or more gives 0 (1 << 64 is 0).
* C84: `float_from_i128` of -2^127 negates to itself and then shifts arithmetically: the double is -1.5 * 2^128 instead of -2^127.
* C85: `fixint` clamps from 2^128 on only; values in [2^127, 2^128), outside of int128, come out wrapped (2^127 gives -2^127 while 2^128 gives 2^127-1).
* C87: `Sha256.update` counts `len * 8` in a `uint`: one piece of 2^29 bytes (512 MB) or more is padded with a wrong length, so its digest is not that of the message (and differs from the digest of the same message in smaller pieces).
* C88: `Sha1.update` computes `j + len` and `i + 63` in `uint`: a piece near uint.max bytes, which the contract allows, is copied past the 64-byte buffer.
* C91: `@derive` counts iterations in an `int` and compares with a `uint` by value: with 2^31 iterations or more it never ends.
* C92: `Crc64.init` takes a `uint` seed, unlike `Crc32.init` it cannot take up a finished 64-bit checksum.
* C95: instances of generic modules are found by a text that does not determine the arguments (`sema_generate_parameterized_name_to_scratch`). The generic modules `a::b` and `a_b` share instances; with a generic module named `p`, `Foo{int*}` and `Foo{int}*` are the same argument; faults of the same name in different modules are the same argument, so are `Ea.A_B` and `Ea_A.B`, pointers to functions `fn void(int**)` and `fn void(int[])`, functions of `x::Foo` and `y::Foo`, functions with and without C varargs, and the constants `1` and `(char)1`. The second use silently gets the code of the first.
* C96: exported functions of `a::b` and `a_b`, and `b__c` of `a` and `c` of `a::_b`, get the same symbol; a method added to a type of another module is named after the module of the type, so private methods of the same name added by two modules clash; methods on slices (arrays, vectors) are named without the module of the element type; function types that differ only in punctuation get one typeid.
* C98: `split` and `split_to_buffer` declare `@ensure return.len > 0`, which fails for `",".split(",", skip_empty: true)`; the splitter of `"a,"` gives one piece where `split` gives two.
* C100: in base 16 the characters `:` to `?` are read as the digits 10 to 15 (`"0x:".to_int()` is 10); the overflow check `new_value < value` misses most overflows: `"300".to_ichar()` is 44, `"5000000000".to_uint()` is 705032704; `"-0"` is refused for unsigned types.
* C101: `replace_char` on a null `DString` dereferences null; all other operations accept one.
* C102: `replace("ab", "X")` on `"aab"` leaves it as it is: after a failed match the byte that failed is not tried as the start of the needle. `replace("", ...)` reads `needle[0]`.
* C103: `less` returns false at the first byte that is not smaller, so neither of `"ab"`, `"ac"` is less than the other, and two distinct empty strings are each less than the other.
* C104: `s.append(s)` (or a view of `s`) reads freed memory when `reserve` reallocates; `insert_chars_at` of a view that starts at the first byte does nothing (an early return meant for the whole string). Not modelled: another string placed in memory right behind the block, less than `index + len` bytes after its start, passes the test `s.ptr < start + len` for a moved source (the test leaves out the capacity), and bytes `s.len` further on are inserted; `DString.copy(allocator)` copies the allocator field of the original along with the length, so `free` uses the allocator of the original; `read_from_stream` returns 0 in one branch.
* C105: the test whether the last name kept is `..` looks at `len - 3` twice and never at `len - 2`, so every two-byte name that starts with a dot counts as `..`: `"/a/.b/.."` is left as it is, `"/.b/../.."` is accepted although it climbs above the root. For WIN32 it compares with 0 instead of the end of the volume: `"c:../.."` becomes `"c:"`. When nothing is left the dot is written over the zero byte just placed, so `"a/.."` has the text `"."` but `as_zstr` gives `"./.."`: the operating system is given another directory.
* C106: the parent of `"/a"` is the empty path, so `mkdir("/a")` with parents looks for `""`. `append` asserts that the path does not end with a separator, which fails for the root; hence `to_absolute_path` panics when the current directory is `/`. `has_extension(".foo", "foo")` is true while `extension` is empty. Not modelled: `path::rmdir` given a `Path` calls `_mkdir`; `start_of_base_name` for WIN32 looks for a third backslash in `\\a` and panics on the fault.
* C107: with the flag `-` the precision is ignored (`"%-.5d"` of 42 gives `42`); zeros up to a width do not leave room for the prefix (`"%#08x"` is ten bytes wide, `"%p"` likewise); `"%5.0d"` of 0 prints nothing at all; a number filled up to more than 256 bytes is the fault INTERNAL_BUFFER_EXCEEDED.
* C108: `out_str` clears the flags and the width for nested values but not the precision, so `"%.3s"` of a slice prints `[005, abcd]`; a width is computed modulo 2^32 and then read as signed, so `"%4294967295d"` is left-aligned in one column.
* C109: `ntoa_format` throws away the count of `out_reverse` and answers the length of its buffer, so padding is not counted (`"%5d"` returns 1); `out_char` counts 1 for up to 4 bytes.
* C110: `out_char` compares with `<` instead of `<=`, so U+007F, U+07FF and U+FFFF are printed in overlong, that is invalid, UTF-8. `"%3c"` is not padded, `"%-3c"` is padded on both sides: `adjust`, which pads for the flag `-` only, is called both before and after.
* C112: behind a width or precision at the end of a format (`"%5"`, `"%.1"`) the byte behind the format is read: a panic in safe mode, an out-of-bounds read otherwise. Not modelled: `Formatter.print` returns its index, which is always 0; `%s` with a width leaves the null output function in place if the measuring run faults.
* C115: `@local` declarations are in the table of the file only, which a name with a path does not look at, so `app::setup` is unknown in the file of the module `app` that declares `setup` as @local. For a path of the one word `std` only a built-in module without declarations is looked at (line 436), so it does not name a module such as `my::std`.
* C116: a name without a path takes the first of two modules imported with @public that declare it, without a report; three types of one name, one of them a @weak alias of another, clash or do not by the order of the files: preferring a candidate forgets the clash reported before.
* C117: the cost of a replacement compares `a[i]` with `b[i]` instead of `b[j]` (line 551), so the distance of `ab` and `xab` is 3; for a name more than one byte longer than a declared one the declared one is read past its terminating zero. The `memset` clears a quarter of the table only; the table is written before it is read, so this has no effect.
* C118: with AVX, a union of more than 16 bytes of a vector and something else, such as `union { double[<4>] v; long l; }`, is put in memory with the upper class left at SSEUP, and the assertion that SSEUP follows SSE fails in the compiler.
* C121: (1) `union { double d; float f; }` is passed as a float, as the last member at an offset is the one looked at: half of the double is lost. (2) `struct Inner { float x; } struct Outer { Inner i; double d; }` as an argument or result: `x64_get_member_at_offset` answers null for the padding of the inner struct, and `x64_get_fp_type_at_offset` dereferences it. (3) `struct { int a; int b @align(8); }`: the assertion `hi_start == 8` fails, as the low part is not widened.
* C122: numbers of ten and more digits wrap: `4294967297.0.0.1` is accepted as 1.0.0.1.
* C123: accepted although no address: `:1:2:3:4:5:6:7:8`, `1:2:3:4:5:6:7:8:`, `1::2:`, groups of more than four digits such as `00001`, and groups that wrap such as `100000001`. Refused although an address: `1:2:3:4:5:6:7::`.
* C124: the IPv6 predicates compare the first 16-bit group with an 8-bit prefix (`addr.ipv6.a == 0xff`, `0xfe`, `0xfa`): no address in fe80::/10, fec0::/10 or ff00::/8 is recognised.
* C125: ReadBuffer.refill sets read_idx to 0 before the wrapped read; when that reports EOF the old contents become readable again, so after EOF the last bytes are delivered once more.
* C126: WriteBuffer.write_pending lowers index after a short write without moving the bytes left: the head of the buffer is sent twice and its tail is lost.
* C127: ByteBuffer.grow reallocates to the size of the new bytes alone: one more byte written to a full buffer shrinks it to one byte and stops the program. With max_read 0 a read of no bytes reads in front of the buffer.
* C128: ByteWriter.ensure_capacity asks for one byte more than needed, so a fixed buffer cannot be filled; writing nothing to a full buffer stops the program; read_from answers EOF if the stream ends where the buffer does, and stops at the first short read.
* C129: Scanner leaves read_idx unchanged when the second refill meets EOF, so flush repeats bytes; a short read counts as the end; delimiters of several bytes are missed where they straddle the refill.
* C130: LimitReader.available answers the limit even if the stream is shorter; read_fully then fails.
* C131: MultiReader indexes beyond its readers when read again after EOF, or with no readers.
* C133: ByteReader.available after a seek beyond the end wraps to almost 2^64.
* C136: read_all takes a short read for the end of the stream; read_fully gives nothing for streams without `available` and `seek`.
* C137: read_varint refuses 32-bit numbers from 2^29 on; it undoes a zigzag coding that write_varint does not do, so 1 is read as -1.
* C139: the size is rounded up modulo 2^64 (heap_allocator.c3:76), so a request near 2^64 is answered with a block of 0 bytes (`C139_huge_refuted`).
* C145: `next_in_range(int.min, int.max)` computes a range of 0 (random.c3:60), which breaks the contract of `next` (`C145_all_ints_refuted`).
* C146: `Sfc128Random.next_long` casts to uint (math.sfc.c3:35), so the upper half of every long is 0 (`C146_sfc128_refuted`).
* C147: with a state of one word the mixing step subtracts a multiple of the word from itself and multiplies it by an even number (math.seeder.c3:55), so different seeds give the same state (`C147_one_word_refuted`).
* C148: a page remembers the first block made in it instead of the last (dynamic_arena.c3:156; acquire never updates `current_stack_ptr`). Releasing, growing or shrinking that block therefore makes the arena hand out memory that is in use (`C148_release_refuted`, `C148_grow_refuted`, `C148_shrink_refuted`).
* C149: a resize to a smaller size that needs a stricter alignment copies the old size into the smaller new block (dynamic_arena.c3:109) and can write past the page (`C149_overrun_refuted`).
* C150: the index counted from the end is computed with a subtraction marked `nuw` before it is checked (llvm_codegen_expr.c:740), so `a[^i]` with i beyond the length is undefined even in safe mode (`C150_from_end_refuted`); reading an element of a vector is not checked at all (`C150_vector_refuted`); a constant index is cut to 32 bits (sema_expr.c:3074), so `s[2147483648]` does not compile (`C150_rejected_refuted`).
* C151: `a[2:i]` with a negative i passes the check of safe mode and gives a slice of nearly 2^64 elements (`C151_length_refuted`). `a[^2..i]` on an array starts at 2 (`C151_from_end_refuted`: the flag is cleared, the start is not replaced). `s[3000000000:5]` and `s[0..2147483647]` are stored in 32 bits and not stopped (`C151_constant_refuted`). `a[i..]` with i = length panics on an array, but not on a slice (`C151_empty_refuted`).
* C152: the check of a constant range ignores its start (sema_expr.c:3765): `"abc"[1:3]` compiles and reads past the string, `{1, 2, 3}[1:3]` is {2, 3, 3} (`C152_constant_refuted`); slicing a sparse constant array does not move its elements (`C152_sparse_refuted`).
* C153: `range_const_len` ignores `^` on a length: `s[0:^1]` is taken to have one element (`C153_known_length_refuted`).
* C154: `p[-1..0] = x` with a pointer violates an assertion of the compiler (`C154_pointer_refuted`).
* C155: the right side of a shift is cut to the width of the left side before it is checked (`C155_shift_refuted`). Not modelled: dividing the least integer by -1 is not checked.
* C156: the number of values is cut to the type of the number, so `from_ordinal` on a char of an enum with 256 values always panics (`C156_ordinal_refuted`).
* C158: `destroy` of a ThreadPool says that pending work is dropped, but a worker looks at `stop_now` only after waiting (pool.c3:120), so one that is busy goes on with the queue (`C158_destroy_refuted`). FixedThreadPool tests it first. Not modelled: FixedThreadPool never frees its array of threads.
* C159: `num_threads` is set before the threads are created. If creating one fails, `init` calls `destroy`, which waits for threads that do not exist (`C159_init_refuted`).
* C161: a request with an alignment above 16 that does not fit into the arena takes `aligned_offset(40 + size, alignment)` bytes, but places the block at `aligned_offset(40, alignment)`: 24 bytes aligned to 32 lie wholly outside the 64 bytes obtained (`C161_aligned_refuted`; backed_arena_allocator.c3:169-186, the same as in TempAllocator).
* C162: `resize` copies the old size also when the block shrinks (lines 114, 131), past the end of the new block (`C162_shrink_refuted`). In safe mode `reset` fills up to the mark of the oldest page, which may be one past the capacity (`C162_reset_overrun_refuted`, also through `destroy`); and if the last block before the mark was released, `used - mark` wraps and everything behind the mark is written (`C162_reset_release_refuted`).
* C163: `_realloc_page` unlinks the page before asking for the new memory; if that is refused the page is never given back (`C163_refused_refuted`), and a second resize of it walks off the list.
* C164: a time before 1970 that is no whole second shows negative microseconds and the second after it, and from 2255 on the last microseconds of a second show the next second: `to_seconds` is a double and is cut towards zero (`C164_fields_refuted`; time.c3:98, datetime.c3:138-140).
* C167: `TzDateTime.add_years(0)` and `add_months(0)` subtract the offset from the time once more, because `DateTime.add_years(0)` returns the value itself and not one at offset 0 (`C167_offset_refuted`; datetime.c3:160, 166, 196-197).
* C168: `diff_years` compares days of the year, so from March 1, 2020 to March 1, 2021 it gives 0; and it ignores the time of day (`C168_years_refuted`; datetime.c3:243).
* C169: RFC3339MS and RFC3339ZMS print the microseconds without leading zeros, so 5 microseconds read as half a second; negative offsets with minutes print a second minus (`-03:-30`); UNIXDATE prints the local time and calls it GMT (`C169_layout_refuted`; format.c3:29-30, 51-55, 79, 89).
* C171: `a.add_all_to_limit(&a)` counts what did not fit from the size that has grown meanwhile: three elements in an array of four, one fits, three are reported left over instead of two (`C171_self_limit_refuted`; elastic_array.c3:112).
* C172: `push_front_try` requires room, so a full array stops the program instead of giving OUT_OF_MEMORY, and `pop_first` requires an element although it has a NO_MORE_ELEMENT result; `get` and `[]` answer with popped elements (`C172_refuses_refuted`; elastic_array.c3:72-78, 199-205, 277).
* C173: `StringIterator.get` steps back by the size of its window instead of the character: in "abcdefgh" after six characters it gives the fifth, and it can start in the middle of a character (`C173_get_refuted`; string_iterator.c3:40-49).
* C175: the default lengths of array::slice2d and Slice2d.slice are those of the whole array whatever the start: `slice2d(&a, x: 1)` claims as many columns as `a` has, shows the start of the next row at the end of each, and ends outside of the array; lengths are never checked (`C175_default_refuted`; array.c3:53-54, slice2d.c3:166-167).
* C176: the length of a Range of int whose ends are 2^31 or more apart is wrong: the difference wraps in int before it is converted to usz.  int.min..int.max contains every int and has length 0; int.min..0 claims more than 2^63 elements and indexing it gives values it does not contain.  The Range of all values of long or ulong has length 0 (`C176_refuted`, `C176_exact`; range.c3:13-17, 43-47).
* C177: Formatter.print returns the field idx, which nothing ever assigns, so 0 instead of the number of bytes written.  Printing a Path returns 0, and printing an EnumSet or EnumMap returns the bytes of the entries without brackets and separators (`C177_count_refuted`; formatter.c3:560, enumset.c3:128-141, enummap.c3:19-29, path.c3:629-632).
* C179: readline returns the constant "" for an empty line, whose pointer is not null, and CsvRow.free releases it: freeing the row of an empty line releases memory that was never allocated (`C179_free_refuted`; io.c3:66, csv.c3:60-65).  The same holds for any caller of io::readline that frees what it got.
* C21: a `default:` without statements before a case that has some: the compare
  chain and the jump table leave the switch, the LLVM switch runs the case. A
  jump table without gaps does not list the target of a case that runs into
  `default` or off the end. `@jump` on signed cases whose span wraps stops the
  compiler on an assertion.
* C22: only the first value of a new case is looked up in the earlier ones, so
  `case 5: case 1..9:` is accepted and gives invalid LLVM code.
* C23: overlapping cases are counted twice, computed cases as one, and ranges
  after a very wide one as one, so non-exhaustive switches are accepted and
  exhaustive ones refused.
* C32: base32 decoding of a valid padded text fails when the destination is larger than announced; a text whose length is no multiple of 8 is written out of bounds; letters after padding, missing padding and a stray last character are accepted.
* C35: UTF-8 decoding accepts overlong forms (C1 80), surrogates (ED A0 80) and numbers above 0x10FFFF (F7 BF BF BF); `utf8len_for_utf16` counts 8 bytes for a surrogate pair, so `from_utf16` returns a string with 4 uninitialised bytes per pair.
* C36: `a.add_all(&a)` writes twice as many elements as it reserved.
* C38: a HashMap used again after `free` indexes an empty table.
* C40: `pop` of a full RingBuffer leaves its length unchanged, so the element is given twice; the head can wrap through 2^64; `read` across the wrap leaves the array.
* C41: `BitSet.len` is the number of stored bits, more than SIZE, so iterating breaks the contract of `get`.
* C42: `EnumSet` of more than 128 elements shifts the wrong way in `has`/`remove`.
* C43: `remove_at` of an inner index breaks the heap order.
* C45: `quickselect` of a one-element list is NOT_FOUND; 64 unlucky pivots give up.
* C47: `countingsort` misorders signed keys.
* C48: `is_sorted` multiplies comparison results, which can wrap.
* C51: `"\x"` followed by a byte above 127 indexes a table out of bounds; recovery after an unterminated character literal at the end of the file reads past the NUL.
* C54: the UTF-16 test uses `||`, so one suspicious byte is enough to refuse a file.

## 5. Assumptions

Every theorem prints "Closed under the global context": no axioms are used.
(The audit of a file that loads the standard library's `ssreflect` lists the seven
`Coq.ssr.ssrunder.Under_rel.*` constants, which are part of the standard library;
no theorem depends on them.)

Not modelled: LLVM and the linker, the operating system, the semantic analyser
apart from the functions cited in the model files, floating point evaluation.
