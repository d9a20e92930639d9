{"id": "C01", "title": "Constant integer arithmetic wraps like the type", "statement": "Folding +, -, *, unary -, ~, &, | and ^ on two integer constants of the same integer type (8, 16, 32, 64 or 128 bits, signed or unsigned) yields exactly the mathematical result reduced modulo 2^bits into the value range of that type.", "quantifier": "every integer type and every pair of in-range operand values", "why_tests_cant": "The 128-bit operations are built from 64-bit halves and 32-bit limbs with hand written carries; the carry cases form a vanishing fraction of 2^256 operand pairs.", "anchors": ["src/compiler/bigint.c:i128_add", "src/compiler/bigint.c:i128_sub", "src/compiler/bigint.c:i128_mult", "src/compiler/bigint.c:int64_mult", "src/compiler/bigint.c:i128_extend", "src/compiler/bigint.c:int_add", "src/compiler/bigint.c:int_sub", "src/compiler/bigint.c:int_mul", "src/compiler/bigint.c:int_neg", "src/compiler/bigint.c:int_not"]}
{"id": "C02", "title": "Constant division truncates toward zero", "statement": "Folding a / b for non-zero b gives the quotient truncated toward zero, reduced into the type, for every type; for unsigned operands a = (a/b)*b + (a%b) with a%b < b.", "quantifier": "every integer type, every dividend, every non-zero divisor", "why_tests_cant": "Division is a 128 step shift-subtract loop driven by a bit-trick leading-zero count; no finite set of operands exercises all paths.", "anchors": ["src/compiler/bigint.c:i128_udivrem", "src/compiler/bigint.c:i128_sdiv", "src/compiler/bigint.c:int_div", "src/compiler/bigint.c:clz64"]}
{"id": "C03", "title": "Constant remainder agrees with the run-time remainder", "statement": "Folding a % b for non-zero b gives the remainder of truncating division (the sign of the dividend), i.e. a = (a/b)*b + a%b, the same value the generated srem/urem computes.", "quantifier": "every integer type, every dividend, every non-zero divisor", "why_tests_cant": "Only some sign combinations can disagree, and the two evaluators (compiler and generated code) are never compared by a unit test over all operands.", "anchors": ["src/compiler/bigint.c:i128_srem", "src/compiler/bigint.c:int_rem", "src/compiler/sema_expr.c:7124"]}
{"id": "C04", "title": "Constant shifts match the type width", "statement": "Folding x << n and x >> n for a shift amount below the width of the type gives x*2^n reduced into the type, respectively floor(x / 2^n) (arithmetic for signed types, logical for unsigned).", "quantifier": "every integer type, every value, every amount below the width", "why_tests_cant": "Shifts split on amount 0, 64 and above 64 with different formulas for the two halves; exhaustive testing is infeasible.", "anchors": ["src/compiler/bigint.c:i128_shl64", "src/compiler/bigint.c:i128_lshr64", "src/compiler/bigint.c:i128_ashr64", "src/compiler/bigint.c:int_shl64", "src/compiler/bigint.c:int_shr64"]}
{"id": "C05", "title": "Constant comparison is the mathematical comparison", "statement": "Comparing two integer constants, of the same or of different integer types and signedness, with ==, !=, <, <=, >, >= gives the comparison of their mathematical values.", "quantifier": "every pair of integer types, every pair of values, every comparison operator", "why_tests_cant": "Mixed-sign comparison has a separate path per sign combination and values range over 2^128.", "anchors": ["src/compiler/bigint.c:int_compare", "src/compiler/bigint.c:i128_scomp", "src/compiler/bigint.c:i128_ucomp", "src/compiler/bigint.c:binary_op_matches_res"]}
{"id": "C06", "title": "Run-time comparison of mixed signed/unsigned integers is safe", "statement": "The code generated for comparing a signed and an unsigned integer (in either order) evaluates to the comparison of the mathematical values, so it never depends on whether the operands are folded at compile time.", "quantifier": "every width, every pair of bit patterns, every comparison operator, each side possibly a constant", "why_tests_cant": "A wrong branch only shows for operand pairs around the sign boundary of each width; generated code must be right for all of them.", "anchors": ["src/compiler/llvm_codegen_expr.c:llvm_emit_int_comp_raw", "src/compiler/sema_casts.c:cast_to_int_to_max_bit_size"]}
{"id": "C07", "title": "Range check and conversion of constants", "statement": "A constant is accepted for an integer type without a cast exactly when its mathematical value is within the range of that type; an explicit cast yields the unique value of the target type congruent to it modulo 2^bits; the reported number of bits needed is minimal.", "quantifier": "every source type, every target type, every value", "why_tests_cant": "int_fits/int_conv have one path per type and sign combination.", "anchors": ["src/compiler/bigint.c:int_fits", "src/compiler/bigint.c:int_conv", "src/compiler/bigint.c:int_bits_needed"]}
{"id": "C08", "title": "Integer literals denote their digits", "statement": "A decimal, hexadecimal, octal or binary integer literal (with _ separators and optional type suffix) is either rejected with an error or denotes exactly the number its digits spell; it is never silently replaced by another value.", "quantifier": "every digit string of any length in each base", "why_tests_cant": "The overflow test is a heuristic on the top half of a 128-bit accumulator; only particular ranges of 39-digit and longer literals expose it.", "anchors": ["src/compiler/parse_expr.c:parse_integer"]}
{"id": "C09", "title": "Integer constants print and read back", "statement": "Printing an integer constant in any base from 2 to 16 produces the canonical positional representation with a leading minus for negative values (no leading zeros), and reading a decimal string back gives the same value.", "quantifier": "every 128-bit value, every base 2..16", "why_tests_cant": "Printing repeatedly divides a 128-bit value; buffer bound and digit order must hold for all of them.", "anchors": ["src/compiler/bigint.c:i128_to_string", "src/compiler/bigint.c:i128_from_str", "src/compiler/bigint.c:int_to_str"]}
{"id": "C10", "title": "Nested block comments are skipped exactly", "statement": "A /* ... */ comment ends at the matching */ with nesting, an unterminated comment is an error, the scanner never reads past the end of the file, and line numbers advance by the number of newlines skipped.", "quantifier": "every source text", "why_tests_cant": "Nesting depth and position of the terminator are unbounded.", "anchors": ["src/compiler/lexer.c:parse_multiline_comment", "src/compiler/lexer.c:skip_whitespace"]}
{"id": "C11", "title": "String literal escapes", "statement": "Scanning a string literal yields exactly the characters written, with each escape replaced by its documented byte or code point, rejects every malformed escape, and round-trips: escaping any byte string and scanning it gives the byte string back.", "quantifier": "every literal body", "why_tests_cant": "The decoded length and the escape grammar interact for arbitrary inputs.", "anchors": ["src/compiler/lexer.c:scan_string", "src/compiler/lexer.c:append_esc_string_token", "src/compiler/lexer.c:scan_raw_string"]}
{"id": "C12", "title": "Byte literals decode", "statement": "x\"..\" and b64\"..\" literals, including juxtaposed ones, decode to exactly the bytes RFC 4648 assigns to the digits (whitespace skipped), and malformed ones are rejected.", "quantifier": "every literal body and every sequence of adjacent literals", "why_tests_cant": "Padding and concatenation cases interact at arbitrary lengths.", "anchors": ["src/compiler/parse_expr.c:parse_bytes_expr", "src/compiler/parse_expr.c:parse_base64", "src/compiler/parse_expr.c:parse_hex"]}
{"id": "C13", "title": "Bidirectional control characters must balance", "statement": "A comment or string containing Unicode bidirectional control characters is accepted exactly when every embedding/isolate opened in it is closed in it.", "quantifier": "every byte string", "why_tests_cant": "The check is a counter over arbitrary text.", "anchors": ["src/compiler/lexer.c:check_bidirectional_markers"]}
{"id": "C14", "title": "Expression parsing respects precedence and associativity", "statement": "Parsing the token sequence of any expression tree printed with the parentheses the documented precedence table requires returns that tree: higher precedence binds tighter, binary operators associate left, assignment, ternary, elvis and or-else associate right, and all tokens are consumed.", "quantifier": "every expression tree", "why_tests_cant": "The grammar generates infinitely many operator nestings.", "anchors": ["src/compiler/parse_expr.c:parse_precedence_with_left_side", "src/compiler/parse_expr.c:parse_binary", "src/compiler/parse_expr.c:rules"]}
{"id": "C15", "title": "The common type of two numbers is symmetric", "statement": "The arithmetic result type of two numeric types does not depend on operand order, is idempotent and associative, and is at least as wide as both.", "quantifier": "every pair (triple) of numeric types", "why_tests_cant": "Property of the whole table of pairs/triples.", "anchors": ["src/compiler/types.c:type_find_max_num_type", "src/compiler/types.c:type_find_max_type"]}
{"id": "C16", "title": "Implicit integer conversions do not lose value", "statement": "An implicit conversion accepted between integer types without a cast preserves the mathematical value, except for the documented same-width sign change; an expression accepted for implicit narrowing has only operands whose types fit the target.", "quantifier": "every pair of integer types, every value, every arithmetic expression tree", "why_tests_cant": "Narrowing is decided recursively on arbitrary expression trees.", "anchors": ["src/compiler/sema_casts.c:recursive_may_narrow", "src/compiler/sema_casts.c:rule_widen_narrow", "src/compiler/sema_casts.c:rule_int_to_int"]}
{"id": "C17", "title": "Every permitted cast has an implementation", "statement": "For every pair of type groups for which the conversion rules can answer yes there is a conversion routine, so a cast accepted by the checker never aborts the compiler.", "quantifier": "every pair of type groups", "why_tests_cant": "Two separately maintained 21x21 tables must agree cell by cell.", "anchors": ["src/compiler/sema_casts.c:cast_rules", "src/compiler/sema_casts.c:cast_function"]}
{"id": "C18", "title": "Struct layout follows the C rules", "statement": "In the layout computed for a struct, members are in order, pairwise disjoint, each at the smallest offset not below the end of the previous one that is a multiple of its alignment; the size is the smallest multiple of the alignment covering all members; packed structs have no gaps; @nopadding is accepted exactly when there is no gap.", "quantifier": "every member list with arbitrary sizes and power-of-two alignments", "why_tests_cant": "Number, sizes and alignments of members are unbounded.", "anchors": ["src/compiler/sema_decls.c:sema_analyse_struct_members", "src/compiler/compiler_internal.h:aligned_offset"]}
{"id": "C19", "title": "Union layout covers every member", "statement": "A union is as large as its largest member rounded up to the union alignment, every member is at offset 0 and properly aligned, and the representative member plus the explicit padding is exactly the union size.", "quantifier": "every member list", "why_tests_cant": "Unbounded member lists.", "anchors": ["src/compiler/sema_decls.c:sema_analyse_union_members"]}
{"id": "C20", "title": "Bitstruct members never overlap unless allowed", "statement": "A bitstruct accepted without @overlap has pairwise disjoint bit ranges inside the container, so writing one member leaves every other member unchanged.", "quantifier": "every list of bit ranges", "why_tests_cant": "Overlap is a pairwise condition over arbitrary lists.", "anchors": ["src/compiler/sema_decls.c:sema_analyse_bitstruct_member"]}
{"id": "C21", "title": "Switch lowering strategies agree", "statement": "For a switch over integers whose cases are disjoint, the compare chain, the LLVM switch and the jump table all run exactly the body of the case containing the value (following fallthrough to the next body), or default when there is none.", "quantifier": "every list of disjoint case ranges, every value of the switch type", "why_tests_cant": "Three different lowerings must agree for every value.", "anchors": ["src/compiler/llvm_codegen_stmt.c:llvm_emit_switch_body_if_chain", "src/compiler/llvm_codegen_stmt.c:llvm_emit_switch_jump_table", "src/compiler/llvm_codegen_stmt.c:llvm_emit_switch_body"]}
{"id": "C22", "title": "Duplicate switch cases are rejected", "statement": "A switch in which some value is covered by two constant cases is rejected with an error.", "quantifier": "every list of constant case ranges", "why_tests_cant": "Overlap may be between any two of arbitrarily many ranges in any order.", "anchors": ["src/compiler/sema_stmts.c:sema_check_value_case"]}
{"id": "C23", "title": "Enum switch exhaustiveness", "statement": "A switch on an enum without default is treated as covering everything exactly when every enum value has a case.", "quantifier": "every enum size and every list of enum cases accepted by the checker", "why_tests_cant": "Counting argument over arbitrary case lists.", "anchors": ["src/compiler/sema_stmts.c:sema_analyse_switch_body"]}
{"id": "C24", "title": "Compile-time concatenation", "statement": "The compile-time a +++ b of two constant arrays has the length of a plus the length of b, and element i is a[i] for i < len(a) and b[i - len(a)] otherwise, whatever internal representation the operands have.", "quantifier": "every pair of constant arrays in every representation (zero, sparse, full, bytes)", "why_tests_cant": "Nine representation pairs times arbitrary sizes and sparse contents.", "anchors": ["src/compiler/sema_const.c:sema_expr_analyse_ct_concat", "src/compiler/sema_const.c:sema_concat_const_bytes"]}
{"id": "C25", "title": "Constant comparison of non-integers", "statement": "Comparing two constants with == / != is decided by equality of their values, and != is always the negation of ==.", "quantifier": "every pair of constants of the same kind", "why_tests_cant": "Values range over arbitrary byte strings and declarations.", "anchors": ["src/compiler/number.c:expr_const_compare"]}
{"id": "C26", "title": "Symbol interning is injective", "statement": "Interning the same spelling twice gives the same handle and interning different spellings gives different handles, across any number of insertions and table growths, including hash collisions.", "quantifier": "every history of intern requests", "why_tests_cant": "Collision and probe patterns depend on the whole insertion history.", "anchors": ["src/compiler/symtab.c:symtab_add", "src/compiler/symtab.c:symtab_add_target"]}
{"id": "C27", "title": "Lookup tables behave as maps", "statement": "After any sequence of insertions, across collisions and growth, a lookup in a compiler table gives what the table promises: the last value written (overwriting pointer table), the first value with later insertions reporting it (module symbol tables), or every declaration made under the name in order (global declarations); other keys give nothing, and no search fails to end.", "quantifier": "all keys, values, insertion sequences and initial sizes", "why_tests_cant": "Depends on the whole history, on pointer values and on the growth points.", "anchors": ["src/compiler/symtab.c: stable_set, stable_get, htable_set, htable_get", "src/compiler/decltable.c: decltable_set, decltable_get"]}
{"id": "C28", "title": "Arena allocations are disjoint", "statement": "Distinct allocations from the compiler arena never overlap, are 16-byte aligned, lie inside the reserved region, and exhaustion is an error rather than an overlap.", "quantifier": "every sequence of allocation sizes", "why_tests_cant": "Any sequence of sizes and resulting bump pointer.", "anchors": ["src/utils/malloc.c:calloc_arena", "src/utils/vmem.c:vmem_alloc"]}
{"id": "C29", "title": "Every build task runs exactly once", "statement": "Running the task queue executes each submitted task exactly once, and the call returns only after all tasks have finished, for every number of threads and every interleaving.", "quantifier": "every task list, thread count and schedule", "why_tests_cant": "Schedules cannot be enumerated.", "anchors": ["src/utils/taskqueue.c:taskqueue_run", "src/utils/taskqueue.c:taskqueue_thread"]}
{"id": "C30", "title": "JSON project files parse to what they say", "statement": "Parsing the text of any JSON value yields that value: numbers keep their sign, strings their characters, arrays and objects their elements in order; syntax errors are reported.", "quantifier": "every JSON document", "why_tests_cant": "Unbounded nesting and content.", "anchors": ["src/utils/json.c:json_parse"]}
{"id": "C31", "title": "Base64 round trip (std::encoding::base64)", "statement": "decode(encode(x)) = x for both alphabets, with or without padding; encode produces the RFC 4648 text of the announced length; decode never reads or writes outside the buffers and rejects every character outside the alphabet.", "quantifier": "every byte string, every alphabet/padding option, every input to decode", "why_tests_cant": "Length modulo 3/4 and contents unbounded.", "anchors": ["lib/std/encoding/base64.c3"]}
{"id": "C32", "title": "Base32 round trip (std::encoding::base32)", "statement": "decode(encode(x)) = x for both alphabets, with or without padding; decode into any destination buffer that meets the documented precondition gives the same answer.", "quantifier": "every byte string and option, every sufficiently large destination", "why_tests_cant": "Length modulo 5/8, contents, and buffer sizes unbounded.", "anchors": ["lib/std/encoding/base32.c3"]}
{"id": "C33", "title": "Hex round trip (std::encoding::hex)", "statement": "decode(encode(x)) = x; decode accepts exactly the even-length strings of hex digits in either case; encode(decode(s)) is s in lower case.", "quantifier": "every byte string; every string", "why_tests_cant": "Unbounded inputs.", "anchors": ["lib/std/encoding/hex.c3"]}
{"id": "C34", "title": "Percent-encoding round trip (std::net::url)", "statement": "decode(encode(s, mode), mode) = s for every mode; the encoded text contains only allowed characters and valid escapes and has the announced length.", "quantifier": "every byte string, every mode", "why_tests_cant": "Unbounded inputs, interplay of '+', ' ' and '%'.", "anchors": ["lib/std/net/url_encoding.c3"]}
{"id": "C35", "title": "UTF-8/16/32 conversions", "statement": "Converting any sequence of Unicode scalar values to UTF-8 or UTF-16 and back yields the sequence; the length functions give the exact buffer sizes; decoding rejects malformed input.", "quantifier": "every code point sequence, every byte sequence", "why_tests_cant": "Unbounded sequences, 2^21 code points, overlong forms.", "anchors": ["lib/std/core/conv.c3"]}
{"id": "C36", "title": "List behaves as a sequence (std::collections::list)", "statement": "Any sequence of push, pop, push_front, insert_at, remove_at, set, swap, reverse, add_array, clear, pop_first... on a List has the results and contents of the same operations on a mathematical sequence; the element storage is never accessed out of its capacity.", "quantifier": "every history of operations", "why_tests_cant": "Histories and growth points unbounded.", "anchors": ["lib/std/collections/list.c3", "lib/std/collections/list_common.c3"]}
{"id": "C37", "title": "Filtering a list", "statement": "remove_if/retain_if/remove_item/compact leave exactly the elements not selected for removal, in their original order, and return the number removed.", "quantifier": "every list and predicate", "why_tests_cant": "The in-place backward block-move loop must be right for all runs of selected/unselected elements.", "anchors": ["lib/std/collections/list_common.c3:list_remove_if", "lib/std/collections/list_common.c3:list_remove_item", "lib/std/collections/list_common.c3:list_compact"]}
{"id": "C38", "title": "HashMap behaves as a finite map", "statement": "After any sequence of set, remove, clear, get_or_set the HashMap answers get, has_key, len, keys and iteration as the finite map obtained by the same operations, for every hash function consistent with equality and every load factor.", "quantifier": "every history, every hash function, every threshold policy", "why_tests_cant": "Collisions and resizes depend on the entire history and hash function.", "anchors": ["lib/std/collections/hashmap.c3"]}
{"id": "C39", "title": "LinkedList behaves as a sequence", "statement": "Any sequence of operations on a LinkedList behaves like the operations on a sequence; forward and backward traversals agree; freed nodes are never accessed again.", "quantifier": "every history of operations", "why_tests_cant": "Pointer structure depends on whole history.", "anchors": ["lib/std/collections/linkedlist.c3"]}
{"id": "C40", "title": "RingBuffer keeps the most recent elements", "statement": "After pushing any sequence, a RingBuffer of size n holds the last n elements, get(i) is the i-th oldest of them, pop removes the most recent one, read copies the requested span.", "quantifier": "every history of push/pop/write/read/get", "why_tests_cant": "Wrap-around positions depend on the history.", "anchors": ["lib/std/collections/ringbuffer.c3"]}
{"id": "C41", "title": "BitSet behaves as a set of indices", "statement": "set/unset/get/cardinality/xor/or/and on BitSet and GrowableBitSet behave as the operations on finite sets of indices.", "quantifier": "every history, every size", "why_tests_cant": "Unbounded sizes and histories.", "anchors": ["lib/std/collections/bitset.c3"]}
{"id": "C42", "title": "EnumSet behaves as a set of enum values", "statement": "add/remove/has/add_all/retain_all/remove_all/... on an EnumSet behave as set operations for enums of every size.", "quantifier": "every enum size, every history", "why_tests_cant": "Representation switches at 8/16/32/64/128 elements.", "anchors": ["lib/std/collections/enumset.c3"]}
{"id": "C43", "title": "PriorityQueue pops in order", "statement": "Popping a PriorityQueue always returns a minimum (maximum for PriorityQueueMax) of the elements currently in it and removes exactly that one; draining returns them in sorted order; this holds after any history of push, pop and remove_at.", "quantifier": "every history", "why_tests_cant": "Heap shape depends on the history.", "anchors": ["lib/std/collections/priorityqueue.c3"]}
{"id": "C44", "title": "quicksort sorts", "statement": "quicksort leaves the list sorted and a permutation of the input for every list and every total preorder comparison, terminates, and its fixed 64-entry work stack never overflows.", "quantifier": "every list, every comparison function that is a total preorder", "why_tests_cant": "Stack depth and termination depend on adversarial inputs.", "anchors": ["lib/std/sort/quicksort.c3:qsort", "lib/std/sort/quicksort.c3:@partition"]}
{"id": "C45", "title": "quickselect finds the k-th smallest", "statement": "quickselect(list, k) returns the element that would be at index k in the sorted list for every k in range.", "quantifier": "every list, every k in range", "why_tests_cant": "Bounded retry counter only fails on long adversarial inputs.", "anchors": ["lib/std/sort/quicksort.c3:qselect"]}
{"id": "C46", "title": "insertionsort is a stable sort", "statement": "insertionsort leaves the list sorted, a permutation, with equal elements in original order.", "quantifier": "every list and total preorder", "why_tests_cant": "Unbounded.", "anchors": ["lib/std/sort/insertionsort.c3"]}
{"id": "C47", "title": "countingsort sorts", "statement": "countingsort leaves the list sorted by key and a permutation of the input for every list and unsigned key width.", "quantifier": "every list, key width, key function", "why_tests_cant": "In-place bucket permutation with fallback to other sorts by bucket size.", "anchors": ["lib/std/sort/countingsort.c3"]}
{"id": "C48", "title": "binarysearch and is_sorted", "statement": "On a sorted list binarysearch returns an index holding an equal element if there is one, otherwise the insertion point; is_sorted answers true exactly for lists that are non-decreasing or non-increasing.", "quantifier": "every list, every key", "why_tests_cant": "Unbounded.", "anchors": ["lib/std/sort/binarysearch.c3", "lib/std/sort/sorted.c3"]}
{"id": "C49", "title": "BufferedChannel is a FIFO under every schedule", "statement": "Values popped from a BufferedChannel are the values pushed, in push order, each exactly once, under every interleaving of any number of senders, receivers and spurious wake-ups; no more than size values are buffered; after close the remaining values can still be popped and then pop reports closed.", "quantifier": "every program of pushes/pops/close, every schedule", "why_tests_cant": "Schedules cannot be enumerated.", "anchors": ["lib/std/threads/buffered_channel.c3"]}
{"id": "C50", "title": "UnbufferedChannel makes progress", "statement": "With any number of concurrent senders and receivers on an UnbufferedChannel, a sender and a receiver that are both active eventually exchange the value; the channel never deadlocks.", "quantifier": "every schedule", "why_tests_cant": "The deadlock needs two threads on the same side arriving in a particular order.", "anchors": ["lib/std/threads/unbuffered_channel.c3"]}
{"id": "C51", "title": "The lexer stays inside the file", "statement": "Lexing a NUL-terminated source file reads only bytes of the file, terminates, moves forward with every token, and reports for every token or error the row that corresponds to the number of line feeds before it; the token stream ends with the end-of-file token or an error.", "quantifier": "every file content", "why_tests_cant": "The input space is unbounded and an over-read need not be visible.", "anchors": ["src/compiler/lexer.c: lexer_scan_token_inner, lexer_next_token, scan_*, skip_*"]}
{"id": "C52", "title": "Operators are read by maximal munch", "statement": "At an operator character the lexer returns the longest operator of the language that is a prefix of the remaining text, and leaves the rest untouched.", "quantifier": "every remaining text", "why_tests_cant": "The text after an operator is arbitrary.", "anchors": ["src/compiler/lexer.c: lexer_scan_token_inner"]}
{"id": "C53", "title": "Identifier classes", "statement": "A maximal run of identifier characters is one token whose class (variable, type, constant, with @/#/$ prefix) is fixed by the first letter after underscores and the case of the letters; names without a letter are errors except for the discard names.", "quantifier": "every identifier text of any length", "why_tests_cant": "Names are unbounded.", "anchors": ["src/compiler/lexer.c: scan_identifier, lexer_scan_token_inner"]}
{"id": "C54", "title": "Source clean-up", "statement": "Reading a source file removes a leading UTF-8 byte order mark and every carriage return and nothing else, and refuses UTF-16 files only.", "quantifier": "every file content", "why_tests_cant": "Unbounded.", "anchors": ["src/utils/file_utils.c: file_read_all"]}
{"id": "C55", "title": "Character literals", "statement": "A character literal of one to sixteen one-byte items denotes the big-endian number of these bytes; a single non-ASCII character or unicode escape denotes its code point.", "quantifier": "every literal", "why_tests_cant": "256^16 literals.", "anchors": ["src/compiler/lexer.c: scan_char"]}
{"id": "C56", "title": "The machine type agrees with the layout", "statement": "For every accepted struct or union the machine (LLVM) type emitted for it has the size the compiler computed, and every member of a struct is at the offset the compiler computed, so that member access, sizeof and offsetof mean the same.", "quantifier": "every nesting of builtin types, arrays, structs and unions with any @packed and @align attributes", "why_tests_cant": "Two independent layout algorithms have to agree on every type.", "anchors": ["src/compiler/sema_decls.c: sema_analyse_struct_members, sema_analyse_union_members, sema_get_max_natural_alignment", "src/compiler/llvm_codegen_type.c: llvm_type_from_decl", "src/compiler/llvm_codegen_expr.c: llvm_value_struct_gep"]}
{"id": "C57", "title": "Members of bitstructs read and write exactly their bits", "statement": "Reading a bitstruct member gives the value of the bits the declaration names, sign-extended for signed members, in the declared byte order. Assigning a member changes exactly these bits: the member then reads as the assigned value cut to its bits and every other member keeps its value. This holds for integer and array containers alike.", "quantifier": "every container size, every bit range, every member type, either byte order, every previous content and every assigned value", "why_tests_cant": "Shifts, masks and byte boundaries vary with the range and the container; tests use a few ranges, and the suite's golden file even records a wrong store.", "anchors": ["src/compiler/llvm_codegen_expr.c: llvm_extract_bitvalue, llvm_extract_bitvalue_from_array, llvm_emit_update_bitstruct_array, llvm_emit_bitstruct_value_update, llvm_emit_bitassign_expr, llvm_emit_initialize_reference_designated"]}
{"id": "C58", "title": "A constant bitstruct equals the one built at run time", "statement": "For every bitstruct whose members do not overlap, a constant initialiser produces the bytes that assigning the same values one by one at run time produces, and every member then reads as its value.", "quantifier": "every container, every list of disjoint members and every list of values", "why_tests_cant": "Two code generators (constant folding and emitted instructions) have to agree for every range.", "anchors": ["src/compiler/llvm_codegen_expr.c: llvm_emit_const_bitstruct, llvm_emit_const_bitstruct_array, llvm_emit_initialize_reference_bitstruct"]}
{"id": "C59", "title": "Operations on constant arrays agree with their run-time meaning", "statement": "Indexing, slicing, element assignment, designated initialisers, $foreach and the emitted data of a constant array, slice, string or vector all see the same elements, those the program wrote, and an index or range outside the constant is rejected.", "quantifier": "every constant list of every length, in every internal representation (zero, sparse, full, bytes, untyped), every index, range and designator list", "why_tests_cant": "The representation depends on how the constant came about; tests cover a few literals per operation.", "anchors": ["src/compiler/sema_expr.c: sema_slice_initializer, sema_expr_analyse_range_internal, sema_slice_index_is_in_range, sema_expr_fold_to_index", "src/compiler/expr.c: initializer_for_index, expr_rewrite_to_const_initializer_index", "src/compiler/sema_initializers.c: sema_update_const_initializer_at_index", "src/compiler/sema_stmts.c: sema_analyse_ct_foreach_stmt", "src/compiler/llvm_codegen.c: llvm_emit_const_array, llvm_emit_const_initializer"]}
{"id": "C60", "title": "$switch runs the first matching case", "statement": "A $switch over a constant runs the body of the first $case equal to the value or whose range contains it (for types: the first case the type is a subtype of), else $default; cases that repeat an earlier one are rejected, others are not; a constant nextcase goes to the first case that covers its value and is rejected when there is none.", "quantifier": "every constant, every list of cases, ranges and bodies, however the constants came about", "why_tests_cant": "The choice depends on the order, the overlap and the form of all cases at once.", "anchors": ["src/compiler/sema_stmts.c: sema_analyse_ct_switch_stmt, sema_analyse_nextcase_stmt", "src/compiler/number.c: expr_const_in_range"]}
{"id": "C61", "title": "Rewriting a project file keeps what it says", "statement": "After a command that changes the project file (adding a target, adding libraries), reading the file again gives the same project with only the requested change: every other entry has the value it had, and no entry is lost or doubled.", "quantifier": "every project file, target and list of libraries", "why_tests_cant": "Project files have unbounded size, nesting and content; the tests write none.", "anchors": ["src/utils/json.c:print_json", "src/utils/json.c:json_map_set", "src/build/project_manipulation.c:add_target_project", "src/build/project_manipulation.c:add_libraries_to_project_file"]}
{"id": "C62", "title": "Defers run on every way out of a scope", "statement": "When a scope is left, by running to its end, by break, continue, nextcase, return or rethrow (labelled or not, out of any number of scopes, loops, switches and macros at once), the defers registered in every scope left run exactly once each, innermost and latest first, `defer try` only when no fault leaves and `defer catch` only when one does; nothing else runs, and control goes where the source says.", "quantifier": "every function body that is accepted (any nesting and mix of blocks, if, loops, switches, jumps, defers and macros) and every sequence of run-time decisions", "why_tests_cant": "The compiler copies defer bodies to every jump separately; the ways out multiply with nesting, and tests cover a handful of combinations.", "anchors": ["src/compiler/sema_stmts.c:sema_analyse_break_stmt", "src/compiler/sema_stmts.c:sema_analyse_return_stmt", "src/compiler/sema_stmts.c:sema_analyse_nextcase_stmt", "src/compiler/semantic_analyser.c:context_get_defers", "src/compiler/semantic_analyser.c:context_pop_defers", "src/compiler/llvm_codegen_stmt.c:llvm_emit_for_stmt", "src/compiler/llvm_codegen_stmt.c:llvm_emit_switch_body"]}
{"id": "C63", "title": "A function with a result always returns one", "statement": "If a function with a return value is accepted, no call of it runs off the end of its body; the code the compiler drops as unreachable is never reached by the source's meaning; and a function whose type is not optional never returns a fault.", "quantifier": "every accepted function body and every sequence of run-time decisions", "why_tests_cant": "Needs the flow analysis to be right about every path of every function.", "anchors": ["src/compiler/sema_stmts.c:sema_analyse_function_body", "src/compiler/sema_stmts.c:sema_analyse_if_stmt", "src/compiler/sema_stmts.c:sema_analyse_for_stmt", "src/compiler/sema_stmts.c:sema_analyse_switch_body", "src/compiler/sema_expr.c:sema_expr_analyse_macro_call"]}
{"id": "C64", "title": "Flow analysis ends with a verdict", "statement": "Whatever the statements of a function and their jumps, the compiler either accepts it or reports an error; it does not abort.", "quantifier": "every function body", "why_tests_cant": "Bodies are unbounded; asserts on the defer chain and the limit on open scopes depend on every path through the analysis.", "anchors": ["src/compiler/semantic_analyser.c:context_change_scope_with_flags", "src/compiler/sema_stmts.c:sema_analyse_switch_body"]}
{"id": "C65", "title": "An arena over a fixed buffer serves every history of requests honestly", "statement": "For every sequence of acquire, resize, release, store, mark and reset requests a program makes of an arena allocator: every block handed out has the requested alignment, lies inside the buffer, overlaps no other block the program holds, is zero when zeroed memory was asked for, and keeps its leading bytes when resized; no request changes a byte of a block the program holds; no request stops the program or writes outside the buffer; and a reset keeps every block below the mark.", "quantifier": "all buffers, all initial memory contents, all finite histories of requests (sizes, alignments, stores), with and without safety checks", "why_tests_cant": "A test runs one history; the overlap and overrun cases need a particular interplay of sizes, alignment padding and order of releases.", "anchors": ["lib/std/core/allocators/arena_allocator.c3: ArenaAllocator.acquire, release, resize, mark, reset", "lib/std/core/mem_allocator.c3: Allocator"]}
{"id": "C66", "title": "A stack-buffer allocator with overflow to another allocator serves every history of requests honestly", "statement": "For every sequence of acquire, resize, release, store and free requests: blocks are aligned as requested, lie in the buffer or in memory obtained from the backing allocator, do not overlap, are zero when zeroed memory was asked for, keep their leading bytes when resized; no request changes a byte of a block held, stops the program or writes memory the allocator does not own; and this for every correct backing allocator, including one that runs out of memory at any point.", "quantifier": "all buffers, all behaviours of the backing allocator, all finite histories of requests", "why_tests_cant": "The behaviour of the backing allocator (which addresses, when it fails) is outside the control of a test.", "anchors": ["lib/std/core/allocators/on_stack_allocator.c3: OnStackAllocator.acquire, resize, release, free"]}
{"id": "C67", "title": "Temporary memory and nested pools serve every history of requests honestly", "statement": "For every program that allocates, resizes, frees and stores in temporary memory and enters and leaves pools in any nesting: every block has the requested alignment, lies in memory owned by the allocator, overlaps no other block held, is zero when zeroed memory was asked for and keeps its leading bytes when resized; no request, and neither entering nor leaving a pool, changes a byte of a block that is still held; leaving a pool ends exactly the blocks allocated in it; nothing stops the program or touches memory already given back; and this for every correct backing allocator, including one that runs out of memory at any point.", "quantifier": "all configurations, all behaviours of the backing allocator, all finite histories of requests and pool entries and exits, with and without safety checks", "why_tests_cant": "Whether blocks overlap depends on the interplay of sizes, alignments, nesting and the addresses and failures of the backing allocator, which tests do not control.", "anchors": ["lib/std/core/allocators/temp_allocator.c3: TempAllocator.acquire, resize, release, derive_allocator, reset, destroy", "lib/std/core/mem_allocator.c3: push_pool, pop_pool", "lib/std/core/mem.c3: @pool"]}
{"id": "C68", "title": "A QOI image that is encoded is decoded to the same image", "statement": "For every RGB or RGBA image within the size limit, encoding succeeds, and decoding the result returns the same width, height, channels and colour space and exactly the same pixels, also when decoding is asked for three or four channels; images with an empty side, without channels, with too many pixels or with the wrong number of bytes are refused.", "quantifier": "all images (any width, height, channels and pixel bytes) and all channel requests", "why_tests_cant": "Encoder and decoder share evolving state (previous pixel, palette, run length) so that the outcome at a pixel depends on the whole image before it; tests see a few images.", "anchors": ["lib/std/compression/qoi.c3: encode, decode, Pixel.hash, OpRGB, OpRGBA, OpIndex, OpDiff, OpLuma, OpRun, @extract"]}
{"id": "C69", "title": "The QOI codec implements the published format", "statement": "The output of the encoder is a QOI file: correct header, valid chunks, no two equal index chunks in a row, the end marker, at most channels + 1 bytes per pixel plus 22, and its meaning by the format specification is the image. Conversely the decoder gives every QOI file the meaning the specification gives it.", "quantifier": "all images; all sequences of valid chunks", "why_tests_cant": "Compatibility with other implementations concerns every stream any encoder may produce, not only those of the library itself.", "anchors": ["lib/std/compression/qoi.c3: encode, decode, Header, END_OF_STREAM"]}
{"id": "C70", "title": "Decoding arbitrary bytes as QOI is safe", "statement": "For any bytes, decoding either refuses them with a fault or returns exactly width * height * channels bytes for the header's width and height, and never reads outside the data.", "quantifier": "all byte strings and channel requests", "why_tests_cant": "Damaged and hostile files are arbitrary; a test suite contains a few.", "anchors": ["lib/std/compression/qoi.c3: decode, @extract, @enumcast"]}
{"id": "C71", "title": "Big integer sums, differences, negation and order are exact", "statement": "Numbers built from integers or words have exactly that value and one representation; sum, difference and negation are the exact integers whenever these fit in 8192 bits and otherwise stop the program, never returning a wrong number; comparison, equality and the tests for zero, one, sign and parity agree with the integers.", "quantifier": "all pairs of representable integers", "why_tests_cant": "Carries and borrows run through up to 256 words and depend on lengths and signs of both operands; tests try a handful of values.", "anchors": ["lib/std/math/bigint.c3: init_with_array, init, add_this, sub_this, negate, unary_minus, less_than, greater_than, equals, greater_or_equal, is_zero, is_one, is_negative, is_odd"]}
{"id": "C72", "title": "Big integer products are exact", "statement": "The product is the exact integer whenever it fits in 8192 bits; otherwise the program is stopped.", "quantifier": "all pairs of representable integers", "why_tests_cant": "The inner carry chain depends on all words of both operands and overflow detection on their sum of lengths.", "anchors": ["lib/std/math/bigint.c3: mult_this"]}
{"id": "C73", "title": "Big integer division rounds towards zero and the remainder belongs to it", "statement": "For every dividend and non-zero divisor the quotient is rounded towards zero and the remainder is dividend - quotient * divisor; division by zero stops the program.", "quantifier": "all dividends and divisors", "why_tests_cant": "Quotient estimation errs on rare combinations of words that tests do not meet.", "anchors": ["lib/std/math/bigint.c3: div_this, mod_this, single_byte_divide, multi_byte_divide"]}
{"id": "C74", "title": "Writing a big integer in a radix and reading it back", "statement": "In every radix from 2 to 36 the text of a number is its usual notation without superfluous zeros, and reading the text gives the same number; every text that is read gives the number it denotes and only texts that are no numbers are refused as malformed.", "quantifier": "all numbers, all radices 2 to 36, all texts", "why_tests_cant": "Both directions are loops over all digits with carried multipliers; tests contain a few numbers.", "anchors": ["lib/std/math/bigint.c3: to_string_with_radix, init_string_radix"]}
{"id": "C75", "title": "Bitwise operations on big integers are those of unbounded two's complement", "statement": "and, or, xor and not of big integers, including negative ones, are the operations on infinite two's complement bit strings, and the bit count of a positive number is the position of its highest bit plus one.", "quantifier": "all representable integers", "why_tests_cant": "The shorter operand is extended implicitly by its sign; the interplay of sign and length is a case split over all pairs.", "anchors": ["lib/std/math/bigint.c3: bit_and_this, bit_or_this, bit_xor_this, bit_negate_this, bitcount"]}
{"id": "C76", "title": "Shifts of big integers multiply and divide by powers of two", "statement": "Shifting left by s multiplies by 2^s when the result fits; shifting right by s divides a non-negative number by 2^s rounding down.", "quantifier": "all representable integers and shift amounts", "why_tests_cant": "Word and bit parts of the shift interact with the number of words in use.", "anchors": ["lib/std/math/bigint.c3: shl_this, shl, shr_this, shr, shift_left, shift_right"]}
{"id": "C77", "title": "The square root of a big integer is rounded down exactly", "statement": "For every non-negative number n the result is the greatest r with r * r <= n.", "quantifier": "all non-negative representable integers", "why_tests_cant": "The result is built bit by bit; an error in one of thousands of steps shows only for special numbers.", "anchors": ["lib/std/math/bigint.c3: sqrt, bitcount"]}
{"id": "C78", "title": "Greatest common divisor and least common multiple of big integers", "statement": "gcd and lcm return the greatest common divisor and the least common multiple of their operands' absolute values.", "quantifier": "all pairs of representable integers", "why_tests_cant": "Euclid's loop runs an unbounded number of steps depending on both operands.", "anchors": ["lib/std/math/bigint.c3: gcd, lcm, abs"]}
{"id": "C79", "title": "Modular power of big integers", "statement": "mod_pow returns the remainder of base^exponent by the modulus, with the sign of the power, for every base, every exponent that is not negative and every modulus.", "quantifier": "all bases, exponents and moduli", "why_tests_cant": "Thousands of squarings and reductions follow each other; the reduction estimates quotients with error terms.", "anchors": ["lib/std/math/bigint.c3: mod_pow, barrett_reduction"]}
{"id": "C80", "title": "Numbers in source text follow the published grammar", "statement": "Every integer and floating point literal of the published grammar is read as one token of that kind, up to its end, whatever follows it; text that starts with a digit and is no number of the grammar (doubled or trailing \"_\", a digit outside the base, an integer suffix on a real, letters that run on) is an error.", "quantifier": "all texts, all following texts", "why_tests_cant": "The forms multiply: four bases, separators anywhere, fraction, exponent, suffixes, and the next character; tests list a few.", "anchors": ["src/compiler/lexer.c: scan_digit, scan_dec, scan_hex, scan_oct, scan_binary, scan_exponent, scan_number_suffix", "resources/grammar/c3.l: INT, HINT, OINT, BINT, INTTYPE, REALTYPE, INTEGER, REAL"]}
{"id": "C81", "title": "128-bit division in the runtime is exact", "statement": "Dividing two 128-bit integers by the runtime routines gives the exact quotient and remainder: rounded down for unsigned, towards zero with the remainder of the dividend's sign for signed; the one quotient that does not fit wraps; dividing by zero does not return a value.", "quantifier": "all pairs of 128-bit integers", "why_tests_cant": "The shift-and-subtract loop has a dozen entry cases by the positions of the leading bits; 2^256 pairs.", "anchors": ["lib/std/math/runtime/i128.c3: __udivti3, __umodti3, __divti3, __modti3, @__udivmodti4"]}
{"id": "C82", "title": "128-bit multiplication in the runtime is exact modulo 2^128", "statement": "The product of two int128 values from the runtime routine is the number in range that agrees with the exact product modulo 2^128.", "quantifier": "all pairs of int128", "why_tests_cant": "Carries between four 32-bit products; 2^256 pairs.", "anchors": ["lib/std/math/runtime/i128.c3: __multi3, __mulddi3"]}
{"id": "C83", "title": "128-bit shifts in the runtime are exact", "statement": "Shifting by 0 to 127: logical right is division by 2^n, arithmetic right is division rounded down, left is multiplication modulo 2^128.", "quantifier": "all 128-bit integers, all amounts", "why_tests_cant": "2^128 values times 128 amounts; sign and half boundary interact.", "anchors": ["lib/std/math/runtime/i128.c3: __lshrti3, __ashrti3, __ashlti3"]}
{"id": "C84", "title": "128-bit integers convert to the closest float", "statement": "Converting an int128 or uint128 to float or double in the runtime gives the closest representable number, the even one of two equally close, and infinity beyond the range.", "quantifier": "all 128-bit integers, both formats", "why_tests_cant": "Rounding depends on every discarded bit; 2^128 values.", "anchors": ["lib/std/math/runtime/i128.c3: float_from_i128, float_from_u128, __floattisf, __floattidf, __floatuntisf, __floatuntidf"]}
{"id": "C85", "title": "Floats convert to 128-bit integers towards zero", "statement": "Converting a finite float or double to uint128 in the runtime drops the fraction and clamps to the range; to int128 it drops the fraction whenever the result fits.", "quantifier": "all finite float and double values", "why_tests_cant": "2^64 bit patterns; boundary cases at every exponent.", "anchors": ["lib/std/math/runtime/i128.c3: fixuint, fixint, __fixunsdfti, __fixunssfti, __fixdfti, __fixsfti"]}
{"id": "C86", "title": "A digest does not depend on how the message is cut", "statement": "For SHA-256, SHA-1 and MD5: initialising a state, adding a message in any sequence of pieces (empty ones included) and finishing gives the same digest for every way of cutting the message and whatever the memory of the state held before.", "quantifier": "all byte strings and all ways to cut them into pieces", "why_tests_cant": "The number of splits grows exponentially, and the bugs sit where a piece meets the edge of a 64-byte block.", "anchors": ["lib/std/hash/sha256.c3: Sha256.update, final", "lib/std/hash/sha1.c3: Sha1.update, final", "lib/std/hash/md5.c3: Md5.update, final"]}
{"id": "C87", "title": "SHA-256 is FIPS 180-4", "statement": "The digest of any byte string, hashed at once or in pieces, is the one FIPS 180-4 defines.", "quantifier": "all byte strings, all pieces", "why_tests_cant": "Test vectors cover a handful of lengths; counters wrap only at lengths no test feeds.", "anchors": ["lib/std/hash/sha256.c3: Sha256.init, update, final, sha256_transform, hash"]}
{"id": "C88", "title": "SHA-1 is FIPS 180-4", "statement": "The digest of any byte string, hashed at once or in pieces up to uint.max bytes each as the contract allows, is the one FIPS 180-4 defines, and no memory outside of the state is written.", "quantifier": "all byte strings, all pieces up to uint.max bytes", "why_tests_cant": "As C87; the piece lengths that wrap the 32-bit sums are 4 GB.", "anchors": ["lib/std/hash/sha1.c3: Sha1.init, update, final, sha1_transform, hash"]}
{"id": "C89", "title": "MD5 is RFC 1321", "statement": "The digest of any byte string, hashed at once or in pieces, is the one RFC 1321 defines.", "quantifier": "all byte strings, all pieces", "why_tests_cant": "As C87.", "anchors": ["lib/std/hash/md5.c3: Md5.init, update, final, body, hash"]}
{"id": "C90", "title": "Keyed hashes are RFC 2104", "statement": "HMAC over SHA-256, SHA-1 and MD5, with any key (longer than a block or not) and any message in any pieces, is the code RFC 2104 defines.", "quantifier": "all keys, all messages, all pieces", "why_tests_cant": "Unbounded keys and messages.", "anchors": ["lib/std/hash/hmac.c3: Hmac.init, update, final, hash"]}
{"id": "C91", "title": "Derived keys are RFC 8018", "statement": "pbkdf2 fills an output of any length with the bytes RFC 8018 section 5.2 defines, for every iteration count of its parameter type.", "quantifier": "all passwords, salts, output lengths and iteration counts", "why_tests_cant": "Large iteration counts take hours to run; the last partial block and the block index matter at every length.", "anchors": ["lib/std/hash/hmac.c3: pbkdf2, @derive"]}
{"id": "C92", "title": "CRC-32 and CRC-64 are remainders of polynomials", "statement": "The checksum of a byte string, computed at once or in pieces, is the remainder of the division of the message polynomial by the published generator (with the bit order and the complements of CRC-32), and a CRC-32 continues correctly from a finished value.", "quantifier": "all byte strings, all pieces", "why_tests_cant": "One wrong entry among 256 in a table shows only on messages that reach it.", "anchors": ["lib/std/hash/crc32.c3: Crc32.init, updatec, update, final, hash, CRC32_TABLE", "lib/std/hash/crc64.c3: Crc64.init, updatec, update, final, hash, CRC64_TABLE"]}
{"id": "C93", "title": "A changed byte changes the checksum", "statement": "Two messages that differ in one byte never have the same CRC-32, CRC-64, Adler-32, FNV-1a 32 or FNV-1a 64; Adler-32 is that of RFC 1950; pieces make no difference.", "quantifier": "all pairs of messages that differ in one byte", "why_tests_cant": "All messages, all positions, all pairs of bytes.", "anchors": ["lib/std/hash/adler32.c3: Adler32.init, updatec, update, final, hash", "lib/std/hash/fnv32a.c3: Fnv32a.init, update, hash", "lib/std/hash/fnv64a.c3: Fnv64a.init, update, hash", "lib/std/hash/crc32.c3: hash", "lib/std/hash/crc64.c3: hash"]}
{"id": "C94", "title": "RC4 is the published cipher and undoes itself", "statement": "Encrypting with any non-empty key, at once or in pieces, gives the published keystream exclusive-or the data; encrypting again gives the data back. The comparison of secrets says true exactly when the given number of bytes agree.", "quantifier": "all keys, data, pieces; all memories and lengths", "why_tests_cant": "Unbounded data and keys.", "anchors": ["lib/std/crypto/rc4.c3: Rc4.init, Rc4.crypt, crypt", "lib/std/crypto/crypto.c3: safe_compare"]}
{"id": "C95", "title": "Every use of a generic module gets the instance for its own arguments", "statement": "A use of a generic module with arguments (types or constants) gets an instance made from exactly that module and those arguments; two uses share an instance exactly when module and arguments are the same.", "quantifier": "all generic modules, all nestings of types and constants as arguments, all histories of uses", "why_tests_cant": "Types nest without bound, and instances are found by a made-up text: a test would have to guess the two arguments whose texts meet.", "anchors": ["src/compiler/sema_decls.c: sema_analyse_parameterized_identifier, sema_generate_parameterized_name_to_scratch, module_instantiate_generic", "src/compiler/types.c: type_mangle_introspect_name_to_buffer", "src/compiler/module.c: scratch_buffer_append_module"]}
{"id": "C96", "title": "Distinct declarations have distinct linker symbols", "statement": "Two functions, variables, methods or faults that are declared apart never get the same linker symbol, and two different types never get the same typeid.", "quantifier": "all declarations of all modules, types nested without bound", "why_tests_cant": "As C95; equal symbols are merged silently when they are weak.", "anchors": ["src/compiler/ast.c: scratch_buffer_set_extern_decl_name", "src/compiler/module.c: scratch_buffer_append_module", "src/compiler/types.c: type_mangle_introspect_name_to_buffer", "src/compiler/llvm_codegen_type.c: llvm_get_introspection_for_type"]}
{"id": "C97", "title": "Searching a string answers the first or last place, or none", "statement": "index_of answers the smallest index at which the substring stands, rindex_of the largest, and both fail exactly when it stands nowhere; the same for a byte, one of several bytes, and from a start index; contains, starts_with, ends_with, strip and strip_end agree with this. No search reads outside the string.", "quantifier": "all strings and all non-empty substrings", "why_tests_cant": "The searches stop at the first match, so overlapping candidates, matches that end at the end of the string and failed partial matches all need separate tests; they are unbounded in number.", "anchors": ["lib/std/core/string.c3: String.index_of, String.rindex_of, String.index_of_char, String.index_of_chars, String.index_of_char_from, String.rindex_of_char, String.contains, String.starts_with, String.ends_with, String.strip, String.strip_end"]}
{"id": "C98", "title": "Splitting cuts a string at the leftmost delimiters and joining undoes it", "statement": "split answers the pieces between the delimiters, found from the left, up to the limit, without the empty ones if asked; joining the pieces with the delimiter gives the string back. split_to_buffer answers the same or fails exactly when the pieces do not fit; the splitter visits the same pieces. No piece is written past the array.", "quantifier": "all strings, delimiters, limits and buffer sizes", "why_tests_cant": "The pieces, their number and the growth of the array depend on the text in unboundedly many ways.", "anchors": ["lib/std/core/string.c3: String.split, String.split_to_buffer, join, Splitter.next, String.tokenize"]}
{"id": "C99", "title": "Trimming removes exactly the bytes of the set at the ends; case conversion changes exactly the letters", "statement": "trim, trim_left and trim_right answer the string without its longest start / end made of bytes of the set. Lower and upper case conversion change exactly the ASCII letters.", "quantifier": "all strings and sets", "why_tests_cant": "All strings.", "anchors": ["lib/std/core/string.c3: String.trim, String.trim_left, String.trim_right, String.convert_to_lower, String.convert_to_upper"]}
{"id": "C100", "title": "Reading an integer answers the number the text denotes, or an error", "statement": "to_integer (to_int, to_uint, to_long, ...) answers the number that the text denotes (blanks, sign, 0x/0b/0o prefix, digits) if the type holds it, an overflow error if the type does not, and an error if the text denotes no number.", "quantifier": "all texts, all integer types, all bases", "why_tests_cant": "The overflow check compares the wrapped value to the value before, which is wrong only for some digits in some types.", "anchors": ["lib/std/core/string.c3: String.to_integer"]}
{"id": "C101", "title": "A dynamic string shows the text its history gives", "statement": "After any sequence of appends, insertions, deletions, cuts, replacements of bytes, reversals, reservations, copies, concatenations and joins whose conditions hold, str_view shows exactly the text those operations give when read as operations on texts, len is its length, zstr_view shows it followed by a zero byte, and no operation reads or writes outside the memory of the string or reads memory never written.", "quantifier": "all histories of operations of any length on any texts", "why_tests_cant": "The contents depend on how moves, growth and shrinking interleave; every capacity boundary and every overlap of a move needs its own test, and their number is unbounded.", "anchors": ["lib/std/core/dstring.c3: DString.init, new, temp, DString.append_chars, DString.append_char, DString.append_repeat, DString.append_char32, DString.append_utf32, DString.insert_chars_at, DString.insert_char_at, DString.insert_char32_at, DString.insert_utf32_at, DString.delete, DString.chop, DString.clear, DString.set, DString.reverse, DString.reserve, DString.zstr_view, DString.str_view, DString.len, DString.copy, DString.concat, join"]}
{"id": "C102", "title": "Replacing in a dynamic string replaces the occurrences of the needle and nothing else", "statement": "replace(needle, replacement) turns the text into the one in which every occurrence of the needle, found from the left without overlap, is replaced, and all other bytes stay in their order.", "quantifier": "all texts, needles and replacements", "why_tests_cant": "Matches that start inside a failed match are found or missed depending on the needle; the texts are unbounded.", "anchors": ["lib/std/core/dstring.c3: DString.replace, DString.replace_char"]}
{"id": "C103", "title": "Comparing dynamic strings compares their texts", "statement": "equals answers true exactly for strings with the same text, whatever their capacity or history; less is an order on the texts.", "quantifier": "all pairs of strings a program can make", "why_tests_cant": "All pairs of texts and representations.", "anchors": ["lib/std/core/dstring.c3: DString.equals, DString.less"]}
{"id": "C104", "title": "A part of a dynamic string can be appended to it or inserted into it", "statement": "Appending a view of part of a dynamic string to that string, or inserting it at an index, gives the text with that part added, also when the part spans the index.", "quantifier": "all strings, parts and indexes", "why_tests_cant": "Whether the part is moved before it is read depends on the order of part, index and end, and on the capacity.", "anchors": ["lib/std/core/dstring.c3: DString.append_chars, DString.insert_chars_at"]}
{"id": "C105", "title": "Normalising a path keeps the place it leads to", "statement": "path::new answers, for every string, either INVALID_PATH or a path that is rooted exactly if the string is and leads to the same place (empty and . elements stay, .. goes up); the string is never read or written out of bounds; the text is the shortest for that place; a path that climbs above the root or holds a zero byte is refused; a second normalisation changes nothing; the zero-terminated text the operating system is given is the text of the path.", "quantifier": "all byte strings", "why_tests_cant": "The result is built in place over the bytes still to be read; what a .. removes depends on everything before it, and strings and nesting are unbounded.", "anchors": ["lib/std/io/path.c3: normalize, new, volume_name_len, is_separator, Path.as_zstr"]}
{"id": "C106", "title": "The parts of a path recompose it", "statement": "basename is what follows the last separator and dirname what stands before it; parent is the directory that holds the path, and rooted if the path is; extension and has_extension agree and look at the base name only; append leads to the place reached from the path along the appended text.", "quantifier": "all paths and all appended texts", "why_tests_cant": "Paths are unbounded, and the cases (no separator, a leading one, several) combine freely.", "anchors": ["lib/std/io/path.c3: Path.basename, Path.dirname, Path.parent, Path.extension, Path.has_extension, Path.append, start_of_base_name"]}
{"id": "C107", "title": "Integers are printed exactly", "statement": "The integer conversions of printf print, for every integer of up to 128 bits, its sign, the prefix asked for, zeros up to the precision or the width, and the digits that denote its absolute value in the base, without leading zero, in the case asked for; spaces fill it to the width at the side asked for.", "quantifier": "all integers, bases, flags, widths and precisions", "why_tests_cant": "128-bit values, and five flags, a width and a precision that influence each other.", "anchors": ["lib/std/io/formatter.c3, formatter_private.c3: Formatter.ntoa, Formatter.ntoa_format, Formatter.out_reverse, int_from_any"]}
{"id": "C108", "title": "printf prints the pieces of the format in order", "statement": "The output of printf is the concatenation of the literal bytes, of a percent sign for %%, and of the text of every directive for the next unused argument, widths and precisions given by a star included; %s shows integers, booleans, strings and, recursively, slices; %h shows bytes as hex digits.", "quantifier": "all formats and argument lists", "why_tests_cant": "Formats are unbounded; every directive changes the state of the formatter that the next one starts with.", "anchors": ["lib/std/io/formatter.c3, formatter_private.c3: Formatter.vprintf, printf_parse_format_field, simple_atoi, Formatter.out_str, Formatter.out_substr, print_hex_chars"]}
{"id": "C109", "title": "printf returns the number of bytes printed", "statement": "The count that printf returns is the number of bytes it has written.", "quantifier": "all formats and argument lists", "why_tests_cant": "The count is added up by functions that write different numbers of bytes for every flag and argument.", "anchors": ["lib/std/io/formatter.c3, formatter_private.c3: Formatter.vprintf, Formatter.ntoa_format, Formatter.out_char"]}
{"id": "C110", "title": "%c prints UTF-8", "statement": "%c prints every Unicode scalar value as its UTF-8 text, filled up to the width, and the replacement character for a value out of range.", "quantifier": "all integers", "why_tests_cant": "Over a million code points; the boundaries between the lengths are where it goes wrong.", "anchors": ["lib/std/io/formatter.c3, formatter_private.c3: Formatter.out_char"]}
{"id": "C111", "title": "Printing into a buffer never overruns it", "statement": "bprintf into a buffer of n bytes prints what printf prints if that has at most n bytes; otherwise it fills the buffer with the first n bytes of it and answers a fault. No byte outside of the buffer is written, and no fault is lost on the way.", "quantifier": "all buffer sizes, formats (malformed ones too) and arguments", "why_tests_cant": "The fault may be raised at every byte, inside of padding, of nested slices, or of the printing of another fault.", "anchors": ["lib/std/io/formatter.c3, formatter_private.c3: Formatter.out, @wrap_bad, @report_fault, first_err", "lib/std/io/io.c3: bprintf, out_buffer_fn"]}
{"id": "C112", "title": "A format is never read past its end", "statement": "printf ends and reads no byte outside of the format, whatever the format and the arguments.", "quantifier": "all formats and argument lists", "why_tests_cant": "A directive may be cut off at every byte.", "anchors": ["lib/std/io/formatter.c3, formatter_private.c3: Formatter.vprintf, printf_parse_format_field"]}
{"id": "C113", "title": "A written path names the modules that end with it", "statement": "A path before a name stands for exactly the modules whose own path ends with the same words; two modules count as relatives exactly if the words of one path begin those of the other.", "quantifier": "all module paths", "why_tests_cant": "Paths are compared as texts, from the end, at every length; a word may end with another word.", "anchors": ["src/compiler/sema_name_resolution.c: matches_subpath, module_inclusion_match", "src/compiler/sema_passes.c: sema_analyse_pass_module_hierarchy"]}
{"id": "C114", "title": "A name finds only what may be used there", "statement": "The declaration that a name finds is the innermost one of the function, or one with that name, in a module its path names, that is visible in the file: of its own file, of its own module unless @local, public in a relative, in std::core or in an imported module, or private in a module imported with @public. Two different such declarations are behind every report of an ambiguous name, and no null pointer is used.", "quantifier": "all programs, names and paths", "why_tests_cant": "It ranges over all sets of modules, imports and declarations.", "anchors": ["src/compiler/sema_name_resolution.c: sema_resolve_path_symbol, sema_resolve_no_path_symbol, sema_find_decl_in_imports, sema_find_decl_in_global, decl_is_visible"]}
{"id": "C115", "title": "A name finds what may be used there", "statement": "A name that can stand for one declaration finds it, a name that can stand for some is never unknown, and a name that can stand for none is.", "quantifier": "all programs, names and paths", "why_tests_cant": "It ranges over all sets of modules, imports and declarations.", "anchors": ["src/compiler/sema_name_resolution.c: sema_resolve_path_symbol, sema_resolve_no_path_symbol, sema_find_local"]}
{"id": "C116", "title": "The order of declarations does not matter", "statement": "What a name stands for, and whether it is ambiguous, is the same however the declarations and imports of the program are ordered.", "quantifier": "all programs and all permutations of their declarations and imports", "why_tests_cant": "The candidates are folded in the order of the files given to the compiler.", "anchors": ["src/compiler/sema_name_resolution.c: sema_resolve_ambiguity, sema_first_is_preferred, sema_find_decl_in_imports"]}
{"id": "C117", "title": "The names proposed for an unknown one are the closest", "statement": "The distance by which \"did you mean\" picks names is the least number of edits between them, and computing it reads no byte outside of the names.", "quantifier": "all pairs of names", "why_tests_cant": "It ranges over all pairs of texts, and a table of every pair of prefixes.", "anchors": ["src/compiler/sema_name_resolution.c: damerau_levenshtein_distance, find_closest"]}
{"id": "C118", "title": "Arguments are classified as the x86-64 System V ABI says", "statement": "Each eightbyte of a type of at most 16 bytes goes in an integer register if any scalar in it does, else in a vector register; types with misaligned parts and larger types go in memory; so C and C3 code agree on every call.", "quantifier": "all laid out types: structs, unions, arrays, vectors and scalars nested to any depth, and all vector settings of the target", "why_tests_cant": "Types nest without bound, and the merging depends on every path of members.", "anchors": ["src/compiler/abi/c_abi_x64.c: x64_classify, x64_classify_struct_union, x64_classify_array, x64_classify_vector, x64_merge, x64_classify_post_merge"]}
{"id": "C119", "title": "Arguments take registers in order", "statement": "Arguments are assigned registers from left to right; one whose registers are not all left goes in memory as a whole and takes none, and later ones may still take them; no more than six integer and eight vector registers are used, one less if the address of the result is passed.", "quantifier": "all signatures with any number of parameters and variable arguments", "why_tests_cant": "It ranges over parameter lists of every length and types of every nesting.", "anchors": ["src/compiler/abi/c_abi_x64.c: c_abi_func_create_x64, x64_classify_parameter, try_use_registers, x64_classify_return"]}
{"id": "C120", "title": "The integer passed for an eightbyte has room for its data", "statement": "The part of an argument that travels in an integer register is an integer at least as wide as the data there, and bytes are taken for padding only if no part of the type lies there.", "quantifier": "all laid out types and all byte ranges of them", "why_tests_cant": "Padding depends on all members at every depth.", "anchors": ["src/compiler/abi/c_abi_x64.c: x64_bits_contain_no_user_data, x64_get_int_type_at_offset, x64_get_member_at_offset"]}
{"id": "C121", "title": "Every argument arrives whole", "statement": "For every type of argument the compiler finds a way to pass it without failing, and the registers chosen hold all of its data.", "quantifier": "all laid out types", "why_tests_cant": "It ranges over all nestings of structs, unions and arrays.", "anchors": ["src/compiler/abi/c_abi_x64.c: x64_classify_argument_type, x64_get_sse_type_at_offset, x64_get_fp_type_at_offset, x64_get_argument_pair_return, x64_get_byte_vector_type"]}
{"id": "C122", "title": "IPv4 texts denote their address", "statement": "ipv4_from_str accepts exactly four decimal numbers up to 255 separated by dots and answers the address they denote; every address is read back from its own text.", "quantifier": "all byte strings; all addresses", "why_tests_cant": "The texts are unbounded in length, and 2^32 addresses have infinitely many texts with leading zeros.", "anchors": ["lib/std/net/inetaddr.c3: ipv4_from_str, InetAddress.to_format, InetAddress.to_string"]}
{"id": "C123", "title": "IPv6 texts denote their address", "statement": "ipv6_from_str accepts exactly the texts of RFC 4291 section 2.2 (without embedded IPv4) and answers the address they denote, never leaving the eight groups; every address is read back from its own text.", "quantifier": "all byte strings; all 2^128 addresses", "why_tests_cant": "The texts are unbounded, and the place and length of :: interact with the count of colons.", "anchors": ["lib/std/net/inetaddr.c3: ipv6_from_str, InetAddress.to_format, InetAddress.to_string"]}
{"id": "C124", "title": "The class of an address is that of its block", "statement": "is_loopback, is_any_local, is_link_local, is_site_local, is_multicast and its scopes answer true exactly for the addresses in the published blocks.", "quantifier": "all IPv4 and IPv6 addresses", "why_tests_cant": "There are 2^32 and 2^128 addresses.", "anchors": ["lib/std/net/inetaddr.c3: is_loopback, is_any_local, is_link_local, is_site_local, is_multicast, is_multicast_global, is_multicast_node_local, is_multicast_site_local, is_multicast_org_local, is_multicast_link_local"]}
{"id": "C125", "title": "A buffered reader hands out the stream in order", "statement": "Reading through a ReadBuffer hands out the bytes of the wrapped stream in order, without gaps or repetitions, says EOF only when all have been handed out, and keeps saying it.", "quantifier": "all data, buffer sizes, sequences of read and read_byte, and all sizes in which the wrapped stream delivers", "why_tests_cant": "Histories of calls are unbounded, and the wrapped stream is free to hand out or take any number of bytes at each call.", "anchors": ["lib/std/io/stream/buffer.c3: ReadBuffer.read, read_byte, refill"]}
{"id": "C126", "title": "A buffered writer passes on everything in order", "statement": "What was written through a WriteBuffer is, after a successful flush, exactly what the wrapped stream has taken, in order; before that the rest is in the buffer.", "quantifier": "all data, buffer sizes, sequences of write, write_byte and flush, and all sizes in which the wrapped stream takes bytes", "why_tests_cant": "Histories of calls are unbounded, and the wrapped stream is free to hand out or take any number of bytes at each call.", "anchors": ["lib/std/io/stream/buffer.c3: WriteBuffer.write, write_byte, flush, write_pending"]}
{"id": "C127", "title": "A byte buffer is a queue", "statement": "A ByteBuffer hands out the bytes written to it first in, first out; the last byte read can be put back once; writing never fails and never leaves the buffer.", "quantifier": "all histories of write, write_byte, read, read_byte, pushback_byte, all capacities and values of max_read", "why_tests_cant": "Histories of calls are unbounded, and the wrapped stream is free to hand out or take any number of bytes at each call.", "anchors": ["lib/std/io/stream/bytebuffer.c3: ByteBuffer.init, init_with_buffer, write, write_byte, read, read_byte, pushback_byte, grow, shrink"]}
{"id": "C128", "title": "A byte writer holds what was written", "statement": "str_view of a ByteWriter is the concatenation of the accepted writes; a growing writer accepts every write, a fixed one exactly those that fit; read_from takes the whole stream and answers its length.", "quantifier": "all histories of write and write_byte, all buffers and streams", "why_tests_cant": "Histories of calls are unbounded, and the wrapped stream is free to hand out or take any number of bytes at each call.", "anchors": ["lib/std/io/stream/bytewriter.c3: ByteWriter.write, write_byte, ensure_capacity, read_from, str_view"]}
{"id": "C129", "title": "Scanning gives the pieces between delimiters", "statement": "Successive calls of Scanner.scan give the pieces of the stream between delimiters, in order, then NOT_FOUND; flush then gives what is left.", "quantifier": "all streams, delimiters, buffer sizes and delivery sizes", "why_tests_cant": "Pieces may lie anywhere relative to the buffer boundary, and the stream may deliver in any sizes.", "anchors": ["lib/std/io/stream/scanner.c3: Scanner.scan, flush, refill, find"]}
{"id": "C130", "title": "A limited reader hands out the beginning of a stream", "statement": "Reading through a LimitReader hands out the first limit bytes of the stream, in order, then EOF, takes no byte more from the stream, and says truly how many bytes are available.", "quantifier": "all streams, limits, histories and delivery sizes", "why_tests_cant": "Histories of calls are unbounded, and the wrapped stream is free to hand out or take any number of bytes at each call.", "anchors": ["lib/std/io/stream/limitreader.c3: LimitReader.read, read_byte, available"]}
{"id": "C131", "title": "A multi reader hands out the concatenation", "statement": "Reading through a MultiReader hands out the concatenation of its streams in order and then says EOF.", "quantifier": "all lists of streams, histories and delivery sizes", "why_tests_cant": "Histories of calls are unbounded, and the wrapped stream is free to hand out or take any number of bytes at each call.", "anchors": ["lib/std/io/stream/multireader.c3: MultiReader.read, read_byte"]}
{"id": "C132", "title": "Duplicating streams copy exactly", "statement": "A TeeReader hands out its stream in order and writes exactly what it handed out; a MultiWriter answers success only if every writer took everything.", "quantifier": "all streams, histories, delivery sizes and lists of writers", "why_tests_cant": "Histories of calls are unbounded, and the wrapped stream is free to hand out or take any number of bytes at each call.", "anchors": ["lib/std/io/stream/teereader.c3: TeeReader.read, read_byte", "lib/std/io/stream/multiwriter.c3: MultiWriter.write"]}
{"id": "C133", "title": "Reading bytes in memory", "statement": "A ByteReader hands out its bytes in order from its position and then says EOF; seek moves to the stated position, pushback_byte undoes read_byte, available is the number of bytes left.", "quantifier": "all byte slices, positions and histories", "why_tests_cant": "Histories of calls are unbounded, and the wrapped stream is free to hand out or take any number of bytes at each call.", "anchors": ["lib/std/io/stream/bytereader.c3: ByteReader.read, read_byte, pushback_byte, seek, available"]}
{"id": "C134", "title": "Copying a stream copies all of it", "statement": "copy_to answers the number of bytes only when all bytes of the source have arrived, in order; otherwise a beginning of them has.", "quantifier": "all streams, destinations, buffer and delivery sizes", "why_tests_cant": "Histories of calls are unbounded, and the wrapped stream is free to hand out or take any number of bytes at each call.", "anchors": ["lib/std/io/stream.c3: copy_to, copy_through_buffer"]}
{"id": "C135", "title": "readline gives the next line", "statement": "readline answers the text up to the next line feed or the end, without carriage returns, leaves what follows unread, and says EOF only when nothing was left.", "quantifier": "all byte streams", "why_tests_cant": "Lines are unbounded.", "anchors": ["lib/std/io/io.c3: readline"]}
{"id": "C136", "title": "Reading an exact number of bytes", "statement": "read_all fills the buffer whenever the stream has that many bytes; read_fully answers all bytes of the stream.", "quantifier": "all streams, sizes and delivery sizes", "why_tests_cant": "Histories of calls are unbounded, and the wrapped stream is free to hand out or take any number of bytes at each call.", "anchors": ["lib/std/io/stream.c3: read_all, read_fully, available"]}
{"id": "C137", "title": "Integers of variable length are read back", "statement": "read_varint after write_varint gives the number written, signed or unsigned, and leaves what follows.", "quantifier": "all 32-bit integers", "why_tests_cant": "There are 2^32 values of each type.", "anchors": ["lib/std/io/stream.c3: read_varint, write_varint, MAX_VARS"]}
{"id": "C138", "title": "Big-endian integers and byte arrays are read back", "statement": "The read_be functions give the number written by the write_be functions, whose bytes are its digits to base 256, highest first; the tiny and short byte arrays are read back.", "quantifier": "all integers of 16, 32, 64 and 128 bits, all byte arrays of the stated sizes", "why_tests_cant": "There are up to 2^128 values.", "anchors": ["lib/std/io/stream.c3: read_be_ushort, read_be_uint, read_be_ulong, read_be_uint128, write_be_short, write_be_int, write_be_long, write_be_int128, write_tiny_bytearray, read_tiny_bytearray, write_short_bytearray, read_short_bytearray"]}
{"id": "C139", "title": "Blocks of the simple heap never overlap", "statement": "The blocks a program holds from a SimpleHeapAllocator, headers included, never share a byte with each other or with free blocks, lie in memory the provider gave, and no byte of that memory is lost.", "quantifier": "all histories of acquire, resize and release, all sizes, all providers of memory", "why_tests_cant": "Histories of calls are unbounded, and the addresses depend on the provider of memory.", "anchors": ["lib/std/core/allocators/heap_allocator.c3: _alloc, _free, _realloc, add_block"]}
{"id": "C140", "title": "The simple heap gives what was asked for", "statement": "An allocation gives an aligned block of at least the size asked for and fails only when the provider refuses; resizing keeps the contents; no call changes the contents of another block or fails to return.", "quantifier": "all histories, sizes and providers of memory", "why_tests_cant": "Histories of calls are unbounded, and the addresses depend on the provider of memory.", "anchors": ["lib/std/core/allocators/heap_allocator.c3: _alloc, _realloc, _free"]}
{"id": "C141", "title": "The simple heap merges what is freed", "statement": "Free blocks are kept sorted and no two are neighbours, so when everything is freed the memory of a region is one block again.", "quantifier": "all histories, sizes and providers of memory", "why_tests_cant": "Histories of calls are unbounded, and the addresses depend on the provider of memory.", "anchors": ["lib/std/core/allocators/heap_allocator.c3: _free, _alloc"]}
{"id": "C142", "title": "The linear generators have full period", "statement": "From any state, an Lcg, Pcg or SimpleRandom generator returns to it exactly after the multiples of 2^k calls, k being the number of bits of its state, and visits every state.", "quantifier": "all states and numbers of calls, for the states of 16, 32, 48, 64 and 128 bits", "why_tests_cant": "A period of 2^48 or more cannot be run through.", "anchors": ["lib/std/math/random/math.lcg.c3: Lcg128Random.next_long, Lcg64Random.next_int, Lcg32Random.next_short, Lcg16Random.next_byte", "lib/std/math/random/math.pcg.c3: Pcg128Random.next_long, Pcg64Random.next_int, Pcg32Random.next_short, Pcg16Random.next_byte", "lib/std/math/random/math.simple_random.c3: SimpleRandom.next_int"]}
{"id": "C143", "title": "The multiplicative generators have a quarter period", "statement": "After any seed, an Mcg generator keeps an odd state, returns to it exactly after the multiples of 2^(k-2) calls, and visits every state with the same remainder modulo 4.", "quantifier": "all seeds and numbers of calls, for the states of 16, 32, 64 and 128 bits", "why_tests_cant": "A period of 2^62 cannot be run through.", "anchors": ["lib/std/math/random/math.mcg.c3: Mcg128Random.next_long, Mcg64Random.next_int, Mcg32Random.next_short, Mcg16Random.next_byte, set_seed"]}
{"id": "C144", "title": "The chaotic generators do not repeat early", "statement": "No state of an Sfc or Msws generator recurs before 2^k calls, k being the width; two different states of an Sfc generator stay different.", "quantifier": "all states and numbers of calls, for widths 8 to 128", "why_tests_cant": "2^64 calls cannot be run through.", "anchors": ["lib/std/math/random/math.sfc.c3: Sfc128Random.next_int128, Sfc64Random.next_long, Sfc32Random.next_int, Sfc16Random.next_short, Sfc8Random.next_byte", "lib/std/math/random/math.msws.c3: Msws128Random.next_int128, Msws64Random.next_long, Msws32Random.next_int, Msws16Random.next_short, Msws8Random.next_byte"]}
{"id": "C145", "title": "Numbers in a range are fair", "statement": "next gives a number from 0 up to range, each from equally many words of the generator, and always returns; next_in_range gives a number from min to max.", "quantifier": "all ranges and generator states", "why_tests_cant": "There are 2^32 ranges and unboundedly many states; whether rejection ends depends on the whole orbit.", "anchors": ["lib/std/math/random.c3: next, next_in_range"]}
{"id": "C146", "title": "Wider values and bytes are made of consecutive outputs", "statement": "The functions for wider types and for bytes put consecutive outputs of the generator together, use every bit, and fill the buffer exactly.", "quantifier": "all generators, states and buffer lengths", "why_tests_cant": "Lengths are unbounded.", "anchors": ["lib/std/math/random.c3: @long_to_int128, @int_to_long, @short_to_int, @char_to_short, @random_value_to_bytes", "lib/std/math/random/math.sfc.c3: Sfc128Random.next_long"]}
{"id": "C147", "title": "Different seeds give different states", "statement": "Two different seeds of the same length, not longer than the state, give different states.", "quantifier": "all seeds and state sizes", "why_tests_cant": "There are 2^64 seeds of 8 bytes, and pairs of them to compare.", "anchors": ["lib/std/math/random/math.seeder.c3: seeder, make_seed", "lib/std/math/random.c3: srand"]}
{"id": "C148", "title": "Blocks of a dynamic arena never overlap", "statement": "Whatever a program acquires, resizes, releases and resets, the blocks it holds lie inside the pages of the arena and do not overlap each other or their size fields.", "quantifier": "all sequences of calls, page sizes and backing allocators", "why_tests_cant": "Histories and address layouts are unbounded.", "anchors": ["lib/std/core/allocators/dynamic_arena.c3: DynamicArenaAllocator.acquire, resize, release, reset, _alloc_new"]}
{"id": "C149", "title": "A dynamic arena keeps contents and fails only with its backing", "statement": "An acquisition gives a new block of the size and alignment asked for; a resize keeps the contents and writes nothing else; a failure means that the backing allocator refused, and changes nothing for the blocks held; no assertion fails.", "quantifier": "all reachable arenas and requests", "why_tests_cant": "Histories, sizes and alignments are unbounded.", "anchors": ["lib/std/core/allocators/dynamic_arena.c3: DynamicArenaAllocator.acquire, resize, release, reset, _alloc_new"]}
{"id": "C150", "title": "An index reads the element it names or the program stops", "statement": "In safe mode a[i] and a[^i] of an array, vector or slice give the element named if it exists, and otherwise the program panics or does not compile; what does not compile does not exist.", "quantifier": "all lengths, indices of both signs, constant or not", "why_tests_cant": "Lengths and indices range over 64 bits.", "anchors": ["src/compiler/sema_expr.c: sema_expr_resolve_subscript_index, sema_slice_index_is_in_range", "src/compiler/llvm_codegen_expr.c: llvm_emit_subscript_addr, llvm_emit_array_bounds_check, llvm_emit_vector_subscript"]}
{"id": "C151", "title": "A slice is the part written, inside the object", "statement": "In safe mode a[x..y], a[x:k], a[x..], with ^ on either end, is exactly the part of the object written and lies inside it, or the program panics or does not compile; every part that lies inside is accepted.", "quantifier": "all lengths, ends of both signs, constant or not, known or unknown lengths", "why_tests_cant": "Lengths and indices range over 64 bits, in every combination of constant and dynamic ends.", "anchors": ["src/compiler/sema_expr.c: sema_expr_analyse_range_internal", "src/compiler/llvm_codegen_expr.c: llvm_emit_slice_values, gencontext_emit_slice"]}
{"id": "C152", "title": "A slice of a constant is the same part of the constant", "statement": "Slicing a constant string, byte array, list or array at compile time gives the elements that slicing it at run time would.", "quantifier": "all constants and constant ranges", "why_tests_cant": "Constants and ranges are unbounded.", "anchors": ["src/compiler/sema_expr.c: sema_expr_analyse_slice, sema_slice_initializer"]}
{"id": "C153", "title": "The compile-time length of a slice is its length", "statement": "Where the compiler takes the length of a slice expression to be a constant, the slice has that length at run time.", "quantifier": "all ranges and lengths", "why_tests_cant": "Ranges and lengths are unbounded.", "anchors": ["src/compiler/sema_internal.h: range_const_len", "src/compiler/sema_expr.c: sema_expr_analyse_range_internal"]}
{"id": "C154", "title": "Assignment to a slice writes exactly its elements", "statement": "a[range] = v writes each element of the slice once and nothing else, whether the loop is unrolled or not.", "quantifier": "all ranges, lengths and signs", "why_tests_cant": "Ranges and lengths are unbounded.", "anchors": ["src/compiler/llvm_codegen_expr.c: llvm_emit_slice_assign"]}
{"id": "C155", "title": "Checked shifts", "statement": "In safe mode a shift by a distance outside 0 to width - 1 panics or does not compile, and every other shift is by that distance.", "quantifier": "all widths, signs and distances", "why_tests_cant": "Distances range over the whole type.", "anchors": ["src/compiler/llvm_codegen_expr.c: llvm_emit_trap_invalid_shift, gencontext_emit_binary", "src/compiler/sema_expr.c: sema_expr_check_shift_rhs"]}
{"id": "C156", "title": "from_ordinal gives the value of the ordinal", "statement": "In safe mode from_ordinal gives the value with that ordinal, and panics if there is none.", "quantifier": "all integer types, enums and numbers", "why_tests_cant": "Numbers range over the whole type.", "anchors": ["src/compiler/llvm_codegen_expr.c: llvm_emit_enum_from_ord"]}
{"id": "C157", "title": "A thread pool runs every job at most once", "statement": "Every job accepted by push is started at most once, nothing else is started, and the queue never holds more than its size.", "quantifier": "all schedules, numbers of threads, sequences of calls and spurious wake-ups", "why_tests_cant": "Schedules are unbounded and tests see few of them.", "anchors": ["lib/std/threads/pool.c3: ThreadPool.init, push, destroy, stop_and_destroy, process_work", "lib/std/threads/fixed_pool.c3: FixedThreadPool.init, push, destroy, stop_and_destroy, process_work"]}
{"id": "C158", "title": "Stopping a pool runs or drops its jobs as promised", "statement": "When stop_and_destroy returns, every accepted job has run to its end and no worker uses the pool; after destroy is called, no pending job is started.", "quantifier": "all schedules", "why_tests_cant": "The moment of the call among the steps of the workers is arbitrary.", "anchors": ["lib/std/threads/pool.c3: ThreadPool.init, push, destroy, stop_and_destroy, process_work", "lib/std/threads/fixed_pool.c3: FixedThreadPool.init, push, destroy, stop_and_destroy, process_work"]}
{"id": "C159", "title": "Stopping a pool ends", "statement": "Without new jobs, destroy and stop_and_destroy return after finitely many steps of the workers, whatever their order, also when init fails.", "quantifier": "all schedules and all points of failure in init", "why_tests_cant": "Termination over all schedules is no finite observation.", "anchors": ["lib/std/threads/pool.c3: ThreadPool.init, push, destroy, stop_and_destroy, process_work", "lib/std/threads/fixed_pool.c3: FixedThreadPool.init, push, destroy, stop_and_destroy, process_work"]}
{"id": "C160", "title": "No job is forgotten in a pool", "statement": "While jobs are queued no worker waits, and workers left alone end with every job run; no wake-up is lost.", "quantifier": "all schedules", "why_tests_cant": "Lost wake-ups need rare interleavings.", "anchors": ["lib/std/threads/pool.c3: ThreadPool.init, push, destroy, stop_and_destroy, process_work", "lib/std/threads/fixed_pool.c3: FixedThreadPool.init, push, destroy, stop_and_destroy, process_work"]}
{"id": "C161", "title": "Blocks of a backed arena never overlap", "statement": "The blocks a BackedArenaAllocator has given out and not taken back lie, with the word stored in front of each, inside the memory of the arena or of its pages, and never overlap, across requests, releases, resizes, marks and resets.", "quantifier": "all histories of requests, all sizes and alignments, all backing allocators", "why_tests_cant": "Histories are unbounded, and overlaps need rare sequences.", "anchors": ["lib/std/core/allocators/backed_arena_allocator.c3: acquire, release, resize, reset, _realloc_page"]}
{"id": "C162", "title": "A backed arena keeps the contents of blocks", "statement": "A request gives a block of the size and alignment asked for; a resize keeps the contents as far as both sizes go; nothing else that the arena does changes the contents of a block or writes memory the arena does not have.", "quantifier": "all histories of requests and stores", "why_tests_cant": "Corruption shows only in the contents of other blocks, after arbitrary histories.", "anchors": ["lib/std/core/allocators/backed_arena_allocator.c3: acquire, resize, reset, mark"]}
{"id": "C163", "title": "Destroying a backed arena gives all memory back", "statement": "After destroy, every page obtained from the backing allocator has been given back.", "quantifier": "all histories, all points at which the backing allocator refuses", "why_tests_cant": "Points of failure multiply with the length of the history.", "anchors": ["lib/std/core/allocators/backed_arena_allocator.c3: destroy, reset, _free_page, _realloc_page"]}
{"id": "C164", "title": "A time is shown as its date and time of day", "statement": "The fields of a DateTime made from a Time are the Gregorian date, the time of day to the microsecond, the weekday and the day of the year of that time, and to_time gives the time back.", "quantifier": "all times", "why_tests_cant": "Leap years, century rules, negative times and rounding make rare cases out of infinitely many times.", "anchors": ["lib/std/time/datetime.c3: from_time, set_time, to_time", "lib/std/time/time.c3: to_seconds"]}
{"id": "C165", "title": "A date and time of day are kept", "statement": "A DateTime made from a date and a time of day has these fields; taking the fields of a DateTime and making a DateTime of them gives the same one; a day beyond the end of the month is counted on.", "quantifier": "all dates and times of day", "why_tests_cant": "All dates, across leap years and before 1970.", "anchors": ["lib/std/time/datetime.c3: from_date, set_date"]}
{"id": "C166", "title": "Adding to a date", "statement": "Adding months or years moves the month or year by that number and leaves the day and time of day, if that day exists; adding seconds, minutes, hours, days or weeks moves the time by that much.", "quantifier": "all dates, all numbers, negative ones too", "why_tests_cant": "Signs, ends of years and remainders combine with all dates.", "anchors": ["lib/std/time/datetime.c3: add_months, add_years, add_seconds, add_minutes, add_hours, add_days, add_weeks"]}
{"id": "C167", "title": "Dates with an offset stay consistent", "statement": "The fields of a TzDateTime always show its time moved by its offset, whatever is done with it; to_gmt_offset keeps the time, with_gmt_offset keeps the fields.", "quantifier": "all histories of operations, all times and offsets", "why_tests_cant": "Histories are unbounded; a slip shows only for offsets other than 0.", "anchors": ["lib/std/time/datetime.c3: to_gmt_offset, with_gmt_offset, from_time_tz, from_date_tz, TzDateTime.add_years, TzDateTime.add_months, TzDateTime.add_days"]}
{"id": "C168", "title": "Comparing dates", "statement": "after, before and compare_to order by time, and so by date; diff_years is the number of full years between two dates.", "quantifier": "all pairs of times", "why_tests_cant": "Pairs around leap days and new year.", "anchors": ["lib/std/time/datetime.c3: after, before, compare_to, diff_years"]}
{"id": "C169", "title": "Dates are printed in the layout of their format", "statement": "Each DateTimeFormat prints a date in its documented layout: the local fields, or those in GMT if the text says GMT or Z, with all digits, names and the offset.", "quantifier": "all formats, all times, all offsets", "why_tests_cant": "Single digits, leading zeros, negative offsets and formats multiply with all times.", "anchors": ["lib/std/time/format.c3: format, temp_numeric_tzsuffix, temp_numeric_tzsuffix_colon"]}
{"id": "C170", "title": "Texts of dates determine them", "statement": "Two dates print the same text in RFC3339Z only if date, time of day to the second and offset are the same; in DATETIME only if date and time of day are.", "quantifier": "all pairs of dates and offsets", "why_tests_cant": "Pairs of dates; a collision needs a particular pair.", "anchors": ["lib/std/time/format.c3: format"]}
{"id": "C171", "title": "An elastic array is a sequence with a limit", "statement": "Over any history of operations an ElasticArray answers what a sequence of at most MAX_SIZE elements answers; the try functions and the functions that add to the limit leave out what does not fit and say so.", "quantifier": "all element types, all limits, all histories of operations", "why_tests_cant": "Histories are unbounded and the limit can be met at any point.", "anchors": ["lib/std/collections/elastic_array.c3: push_try, push, pop, remove_at, add_all, add_all_to_limit, insert_at, insert_at_try", "lib/std/collections/list_common.c3: list_remove_if, list_reverse, list_remove_item, list_compact"]}
{"id": "C172", "title": "An elastic array refuses what does not fit", "statement": "What does not fit or is not there is refused after any history: adding to a full array, and taking, setting or removing what is not there, is reported or stops at a check.", "quantifier": "all limits, all histories, all operations", "why_tests_cant": "The check must hold in every state that a history reaches.", "anchors": ["lib/std/collections/elastic_array.c3: push, push_front_try, pop_first, remove_at, set_at, get"]}
{"id": "C173", "title": "A string iterator is a cursor over the code points", "statement": "Over a UTF-8 string, any sequence of next, peek, has_next and reset answers what a cursor over its code points answers, and get gives the character read last.", "quantifier": "all strings of code points, all sequences of operations", "why_tests_cant": "Strings mix characters of one to four bytes in every order, and histories are unbounded.", "anchors": ["lib/std/core/string_iterator.c3: next, peek, has_next, reset, get", "lib/std/core/conv.c3: utf8_to_char32"]}
{"id": "C174", "title": "A string iterator is safe on any bytes", "statement": "Over any bytes a string iterator stays inside of the string, gives the sequences it consists of up to the first malformed one, and then a fault without moving on.", "quantifier": "all byte strings", "why_tests_cant": "Malformed sequences can start and be cut off anywhere.", "anchors": ["lib/std/core/string_iterator.c3: next"]}
{"id": "C175", "title": "A Slice2d shows its rectangle of the array", "statement": "A Slice2d, also one sliced again, shows the rectangle of the array that was asked for: rows, cells, count and @each are those of the rectangle, writing a cell changes only this cell, and accesses stay inside of the array.", "quantifier": "all arrays, all chains of slices, all coordinates", "why_tests_cant": "Chains of slices and coordinates are unbounded.", "anchors": ["lib/std/core/slice2d.c3: get_row, get_xy, set_xy, slice, @each, count", "lib/std/core/array.c3: slice2d"]}
{"id": "C176", "title": "A range of integers is the values between its ends", "statement": "The elements of a Range or ExclusiveRange, by index and in foreach, are the values it contains, each once and in increasing order; its length is their number and indices beyond it are refused.", "quantifier": "all integer types of up to 64 bits, all ends, all indices", "why_tests_cant": "The pairs of ends are too many to try, and the failures are at distances no test uses.", "anchors": ["lib/std/collections/range.c3: Range, ExclusiveRange"]}
{"id": "C177", "title": "Printing a set, map or path writes its text and returns how much", "statement": "Printing an EnumSet, an EnumMap or a Path writes its text, or a prefix of it and a fault if the output does not take it all, and returns the number of bytes written.", "quantifier": "all sets, maps and paths, all amounts the output takes", "why_tests_cant": "The contents and the points of failure are unbounded.", "anchors": ["lib/std/io/formatter.c3: Formatter.print", "lib/std/collections/enumset.c3: to_format", "lib/std/collections/enummap.c3: to_format", "lib/std/io/path.c3: to_format"]}
{"id": "C178", "title": "CSV rows are the lines cut at the separators", "statement": "Reading a row gives the next line cut at every separator, so that its columns with separators between them are the line, and leaves the rest of the text; @each_row gives the rows in order, at most as many as asked for, and leaves the lines after them.", "quantifier": "all texts of lines ending in LF or CR LF, all separators that are not empty, all limits that are not negative", "why_tests_cant": "Texts are unbounded.", "anchors": ["lib/std/encoding/csv.c3: CsvReader.read_row, skip_row, @each_row"]}
{"id": "C179", "title": "A CSV row that was read can be freed", "statement": "CsvRow.free releases only memory that read_row allocated, whatever the line was.", "quantifier": "all lines", "why_tests_cant": "It depends on which line it was, and a wrong release shows only in some allocators.", "anchors": ["lib/std/encoding/csv.c3: CsvRow.free", "lib/std/io/io.c3: readline"]}
