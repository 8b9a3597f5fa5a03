{"id": "C01", "title": "Garbage collection preserves every live value", "statement": "After (gc), every value that was reachable from the interpreter's roots (stack, registers, symbol table, macro table, ports, current module) is still there with the same type, the same number/character, the same string bytes, the same vector/struct length, and components that are again the corresponding preserved values; the roots point to the corresponding values. The collector never trips its own 'broken heart' assertion on such a heap. (This is for heaps whose live objects do not overlap. vector->list makes overlapping objects, and the assertion can then trip: stated.)", "quantifier": "every well-formed heap (any size, any shape including cycles and sharing) and every root set", "why_tests_cant": "tests run the collector on a handful of shapes; a copying collector can be wrong only for particular sharing/cycle/visit orders", "anchors": ["src/gc.c: gc, gc_, gc_copy, gc_loop, gc_cellcpy, gc_flip, gc_init_news"]}
{"id": "C02", "title": "Garbage collection preserves identity and sharing", "statement": "Two live references are eq? after a collection exactly when they were eq? before it; the correspondence between old and new locations is a one-to-one function, so sharing and cycles are neither lost nor invented.", "quantifier": "every well-formed heap, every pair of reachable references", "why_tests_cant": "sharing mistakes (duplicate copies) are invisible to value comparisons and depend on traversal order", "anchors": ["src/gc.c: gc_copy (broken heart forwarding), gc_loop, gc_flip"]}
{"id": "C03", "title": "Garbage collection keeps the built-in constants in place", "statement": "'(), #f, #t, *unspecified* and all the other built-in symbol cells keep their addresses and contents across any collection, so C code holding them in global variables stays valid.", "quantifier": "every well-formed heap and every number of successive collections", "why_tests_cant": "depends on all constants being copied first, in order, into consecutive cells whatever the rest of the heap is", "anchors": ["src/gc.c: gc_ (loop from cell_nil to g_symbol_max), gc_flip", "src/symbol.c: init_symbols_"]}
{"id": "C04", "title": "Garbage collection reclaims exactly the unreachable cells", "statement": "After a collection the used part of the arena is exactly the sum of the sizes of the reachable objects (plus the reserved first cells): no reachable object is dropped, no unreachable object is kept, no gap is left. (The reserved cells below '() are kept as they are.)", "quantifier": "every well-formed heap", "why_tests_cant": "leaks of a few cells per collection or lost tails are only visible over unbounded histories", "anchors": ["src/gc.c: gc_copy, gc_loop, gc_flip, bytes_cells"]}
{"id": "C05", "title": "Garbage collection terminates within its memory", "statement": "On every well-formed heap whose live data fits in the memory remaining behind the used cells the collector terminates and writes no cell outside the arena. (When live data does not fit, the collector writes outside the arena: nothing checks it.)", "quantifier": "every well-formed heap and every arena size", "why_tests_cant": "termination and in-bounds writes over all heaps are not observable by running a finite number of heaps", "anchors": ["src/gc.c: gc_init, gc_copy, gc_loop, gc_up_arena, gc_check"]}
{"id": "C06", "title": "Collections are transparent to client programs", "statement": "Take any client that keeps its values in the interpreter's roots (registers and stack entries) and chooses each heap operation (cons, car, cdr, set-car!, set-cdr!, make and inspect numbers, characters, strings, vectors, vector-set!, vector-ref, eq?) after seeing the answers to the earlier ones. As long as the memory lasts, running any number of collections before any of its operations does not change any answer, nor whether and how the run ends, and no operation meets undefined behaviour.", "quantifier": "every client (an adaptive, unbounded strategy), every start state the interpreter can be in, every placement of collections (schedule)", "why_tests_cant": "the number of interleavings of operations and collections is unbounded", "anchors": ["src/gc.c: gc, gc_check, make_cell, make_bytes, alloc", "src/vector.c", "src/core.c: car, cdr, eq_p", "src/eval-apply.c: set_car_x, set_cdr_x"]}
{"id": "C07", "title": "Allocation returns fresh, disjoint storage", "statement": "Every allocation returns cells that no earlier allocation since the last collection returned, leaves every existing cell unchanged, is large enough for the bytes requested, and fails with an out-of-memory abort, never silently, when the arena is used up.", "quantifier": "every heap state, every allocation size, every history of allocations", "why_tests_cant": "overlap would only show for particular sizes (rounding boundaries) and fill levels", "anchors": ["src/gc.c: alloc, make_cell, make_pointer_cell, make_value_cell, make_bytes, bytes_cells, make_string"]}
{"id": "C08", "title": "Interpreter stack discipline", "statement": "Saving the interpreter registers in a frame and restoring it gives back exactly the saved registers and the previous stack for any balanced sequence of saves and restores in between; no save or restore touches memory outside the stack array; when the stack is exhausted the interpreter stops with STACK FULL.", "quantifier": "every sequence of pushes and pops, every stack size", "why_tests_cant": "unbounded nesting depth; off-by-one only at the exact boundary", "anchors": ["src/gc.c: gc_push_frame, gc_peek_frame, gc_pop_frame"]}
{"id": "C09", "title": "Pairs obey the pair laws", "statement": "(car (cons a d)) is a, (cdr (cons a d)) is d; set-car!/set-cdr! change exactly that field of exactly that pair and are seen through every alias; car/cdr/set-car!/set-cdr! of anything that is not a pair signal the not-a-pair / wrong-type error and change nothing.", "quantifier": "every heap, every pair of values, every non-pair", "why_tests_cant": "frame conditions (nothing else changes) quantify over the whole heap", "anchors": ["src/gc.c: cons, make_cell", "src/core.c: car, cdr", "src/eval-apply.c: set_car_x, set_cdr_x", "src/lib.c: car_, cdr_"]}
{"id": "C10", "title": "length counts the elements of a proper list", "statement": "(length l) is the number of elements for every proper list l and does not modify or allocate list structure; on an improper list or non-list it returns -1 instead of a count.", "quantifier": "every heap, every proper list of any length; every improper list", "why_tests_cant": "lists are unbounded", "anchors": ["src/core.c: length__, length_"]}
{"id": "C11", "title": "append2 concatenates and shares its tail", "statement": "(append2 x y) denotes the elements of x followed by y, shares y itself (eq? tail), copies x without changing any existing cell, and signals not-a-pair when x is neither a list nor '().", "quantifier": "every heap, every proper list x, every value y", "why_tests_cant": "needs every length and aliasing between x and y", "anchors": ["src/core.c: append2, append_reverse"]}
{"id": "C12", "title": "reverse! reverses in place", "statement": "(core:reverse! l t) returns the reversed elements of l followed by t, reusing exactly the cells of l, allocating nothing and changing no other cell.", "quantifier": "every heap, every proper list, every tail not sharing cells with the list", "why_tests_cant": "in-place pointer reversal bugs depend on length and aliasing", "anchors": ["src/core.c: reverse_x_"]}
{"id": "C13", "title": "assq, assoc, memq and last-pair find the first match", "statement": "assq/memq/assoc return the first entry/tail whose key is the same (eq?-by-value for numbers/chars/keywords, equal? for assoc) as the one asked for, and #f exactly when there is none; last-pair returns the last pair. For assq and memq with a number or character key this holds when the keys compared with are numbers or characters of the same kind as the key, or neither. (A number key also matches the character with that code and the other way round: stated.)", "quantifier": "every heap, every association list / list, every key", "why_tests_cant": "first-match vs. any-match differs only with duplicates in long lists", "anchors": ["src/core.c: assq, assoc, assoc_string", "src/lib.c: memq, xassq, last_pair"]}
{"id": "C14", "title": "equal? is structural equality", "statement": "(equal2? x y) answers #t exactly when x and y denote the same finite datum (numbers, characters, strings, keywords, symbols by identity, pairs and vectors recursively), never modifies its arguments, and terminates on every finite datum; eq? agrees with identity except that it compares numbers, characters and keywords by value.", "quantifier": "every pair of acyclic data of any depth and size, in any heap", "why_tests_cant": "both directions over all tree shapes; sharing between the arguments", "anchors": ["src/lib.c: equal2_p", "src/core.c: eq_p", "src/string.c: string_equal_p"]}
{"id": "C15", "title": "Vectors behave as fixed-length arrays", "statement": "list->vector then vector->list gives back the elements; vector-ref returns the element last stored at that index by vector-set!, other indexes are unaffected; vector-length is constant; an index at or beyond the length stops the program with an error. (Negative indexes are not caught: stated.)", "quantifier": "every list, every index, every history of vector-set! and vector-ref", "why_tests_cant": "arrays of every length and store histories", "anchors": ["src/vector.c: make_vector_, vector_ref_, vector_set_x_, list_to_vector, vector_to_list, vector_length"]}
{"id": "C16", "title": "Structs keep their type and fields", "statement": "make-struct stores type, printer and fields at their positions, struct-ref reads the value last stored with struct-set!, other fields unaffected, out-of-range is caught.", "quantifier": "every field list, every index, every history of updates", "why_tests_cant": "unbounded field lists and histories", "anchors": ["src/struct.c: make_struct, struct_ref_, struct_set_x_, struct_length"]}
{"id": "C17", "title": "Strings are faithful byte sequences", "statement": "string->list and list->string are inverse for every byte string; string-append is concatenation; string-length is the number of bytes (NULs included); string=? answers #t exactly for equal byte sequences; string-ref returns the byte at the index for seven-bit characters and signals an error for any index beyond the length (deviations proved: bytes from 128 on come back as negative characters, the index equal to the length is accepted).", "quantifier": "every byte string up to the configured MAX_STRING, every list of strings", "why_tests_cant": "byte values 0 and >= 128, lengths around word boundaries", "anchors": ["src/string.c: bytes_to_list, string_to_list, list_to_string, string_append, string_length, string_ref, string_equal_p", "src/gc.c: make_string, make_bytes"]}
{"id": "C18", "title": "Symbols are interned", "statement": "For every history of string->symbol calls two calls return the same (eq?) symbol exactly when their strings are equal, previously returned symbols stay valid, and symbol->string gives the original name. This is for names other than \"#f\" whose hash is not negative, which is so unless one of the first bytes is 128 or more. (The two exceptions are stated.)", "quantifier": "every finite history of interning requests, any strings (outside the reserved constant spellings and non-ASCII first bytes)", "why_tests_cant": "quantifies over histories and hash collisions", "anchors": ["src/string.c: string_to_symbol, cstring_to_symbol, make_symbol, symbol_to_string", "src/hash.c: hash_ref, hash_set_x"]}
{"id": "C19", "title": "Hash tables are maps", "statement": "For every history of hashq-set!/hash-set! and look-ups on a hash table, a look-up returns the value of the latest store under an equal key and #f if there is none, for any number of buckets and any collisions; other tables are unaffected. Keys are strings or symbols whose hash is not negative, which is so unless one of the first bytes is 128 or more. (With such a byte the program stops, and the default argument of a look-up is ignored when another key shares the bucket: stated.)", "quantifier": "every history of operations, every bucket count, every key assignment", "why_tests_cant": "collisions and overwrite order depend on history", "anchors": ["src/hash.c: hashq_, hash_, hashq_get_handle, hashq_ref, hash_ref, hash_set_x_, hashq_set_x, hash_set_x, make_hash_table_"]}
{"id": "C20", "title": "Module definitions behave like a store", "statement": "module-ref answers the local binding of a name if there is one, else the value of the latest module-define! of it or of the latest assignment through its variable, else *undefined*; definitions and assignments of other names are unaffected. (A variable obtained before a re-definition keeps the old value: module-define! adds a new binding rather than replacing the value in the variable.)", "quantifier": "every history of module definitions, assignments and references, every local environment", "why_tests_cant": "histories of definitions are unbounded", "anchors": ["src/module.c: module_variable, module_ref, module_define_x, make_initial_module"]}
{"id": "C21", "title": "Numeric comparison is chain comparison", "statement": "(< a b ...), (> a b ...), (= a b ...) of numbers answer #t exactly when the whole sequence is strictly increasing / strictly decreasing / constant; < and > signal not-a-number at the first non-number they reach. (= does not check the arguments after the first: stated.)", "quantifier": "every argument list of any length of 64-bit numbers", "why_tests_cant": "variadic: any number of arguments and mixed orders, and the extreme values used as internal sentinels", "anchors": ["src/math.c: greater_p, less_p, is_p"]}
{"id": "C22", "title": "+, -, * are exact integer arithmetic", "statement": "+, - and * return the exact integer sum/difference/product of all their arguments whenever every intermediate result fits in a machine word, and signal wrong-type on a non-number; when an intermediate result does not fit the C code has undefined behaviour.", "quantifier": "every argument list of any length", "why_tests_cant": "2^64 values per argument, any number of arguments", "anchors": ["src/math.c: plus, minus, multiply, assert_number"]}
{"id": "C23", "title": "quotient, remainder and modulo satisfy the division laws", "statement": "For a positive divisor (/ a b) is truncating division, (modulo a b) is in [0,b) and congruent to a; division by zero is signalled for every dividend. (For negative divisors the C code returns wrong results, which are stated exactly.)", "quantifier": "every dividend and every divisor in the 64-bit range", "why_tests_cant": "2^128 operand pairs", "anchors": ["src/math.c: divide, modulo"]}
{"id": "C24", "title": "Bitwise operations are two's-complement", "statement": "logand, logior, logxor, lognot are the bitwise operations on unbounded two's-complement integers restricted to 64 bits; (ash n c) is n*2^c for in-range results and floor(n/2^-c) for negative c.", "quantifier": "every argument list; every shift count in range", "why_tests_cant": "sign handling for all values", "anchors": ["src/math.c: logand, logior, lognot, logxor, ash"]}
{"id": "C25", "title": "Library long division is correct", "statement": "The C library's uldiv/ldiv/__mesabi_uldiv return the exact quotient and remainder for every 64-bit dividend and nonzero divisor other than the smallest negative one, terminate, never shift out of range, and detect division by zero. (For the smallest negative divisor the code raises SIGFPE: stated.)", "quantifier": "every pair of 64-bit words", "why_tests_cant": "2^128 operand pairs", "anchors": ["lib/mes/div.c: log2i, uldiv1, uldiv, ldiv", "lib/mes/__mes... __mesabi_uldiv"]}
{"id": "C26", "title": "Number formatting and parsing are inverse", "statement": "ntoab writes the text of every number in every base from 2 to 36 whose text fits its buffer, and overruns the buffer exactly when it does not fit; abtol gives the value of every text in base 2, 8, 10, and of the texts in base 16 without a digit after a letter, while the running value fits an int; so parsing a formatted number gives it back. (Outside these bounds the deviations are stated: ultoa of the upper half, digits after a hexadecimal letter, the largest int, other bases.)", "quantifier": "every integer in range, every base 2..36", "why_tests_cant": "2^64 values times bases", "anchors": ["lib/mes/ntoab.c", "lib/mes/abtol.c", "lib/mes/itoa.c", "lib/mes/ltoa.c", "lib/stdlib/strtol.c"]}
{"id": "C27", "title": "Byte and string library functions meet their C specification", "statement": "memcpy, memmove (any overlap), memset, memcmp, memchr, strlen, strcpy, strcat, strncpy, strncat, strcmp, strncmp, strchr, strrchr, strstr, strspn, strcspn, strpbrk, memmem, strlwr and strupr compute what ISO C says for seven-bit text, write only to the destination range and read no further than the terminator/limit. (Deviations stated: bytes from 128 on compare as signed and are not found by strchr and memchr, strrchr of an empty string, strpbrk without a match, strncpy reading past its limit.)", "quantifier": "every memory content, every string length and every overlap", "why_tests_cant": "lengths, overlaps and byte values are unbounded", "anchors": ["lib/string/*.c"]}
{"id": "C28", "title": "qsort permutes and sorts", "statement": "qsort(base,n,size,cmp) always terminates with a permutation of its input, touching no memory outside the array; the result is sorted for inputs without equal elements (with equal elements it may be unsorted).", "quantifier": "every array length, contents and total order", "why_tests_cant": "n! input orders for each n", "anchors": ["lib/stdlib/qsort.c"]}
{"id": "C29", "title": "Buffered input is transparent", "statement": "Any sequence of read, fgetc, ungetc, fgets, fread, lseek and write calls on one open file gives the answers of an unbuffered file with a position and one pushed-back byte, whatever the size of the read buffer and however the kernel splits its answers; the character functions deliver a pushed-back byte first. This holds for programs that push back at most one byte at a time, do not seek to before the start of the file, and write only to seekable files; plain reads deliver the bytes of the file in order without any such condition. (Outside the conditions the code aborts or loses data; a seek keeps a pushed-back byte.)", "quantifier": "every file content, every sequence of read sizes, every kernel short-read schedule", "why_tests_cant": "schedules of short reads are unbounded", "anchors": ["lib/mes/__buffered_read.c", "lib/posix/buffered-read.c", "lib/mes/fdgetc.c", "lib/mes/fdungetc.c", "src/posix.c: readchar, unreadchar, peekchar"]}
{"id": "C30", "title": "The process environment is a map", "statement": "After any history of setenv and unsetenv calls getenv(name) returns the value last set for exactly that name, the initial value if the name was not touched, and the null pointer if it was removed or never there; names that begin like one another are not confused, and memory the program holds is not changed. This holds for names that are not empty and contain no '=', while there are memory and free slots in the environ array, and if no name has two entries when unsetenv is used. (The code ignores the overwrite flag, writes one byte past the new entry, never enlarges the array, accepts '=' in names, and unsetenv leaves one of two neighbouring entries.)", "quantifier": "every initial environment, every history of setenv and unsetenv, every name asked for", "why_tests_cant": "histories, prefix relations between names", "anchors": ["lib/posix/getenv.c", "lib/posix/setenv.c", "lib/posix/unsetenv.c"]}
{"id": "C31", "title": "Formatted output never overruns its buffer", "statement": "snprintf/vsnprintf with size n change at most the n bytes at the destination (besides the integer formatter's own block and the ints %n points to) for every format and arguments for which they return. For formats built from plain characters, %% and the conversions c d i o u x X s with '-', '0', width, precision and 'l' on the domain where the code follows ISO C, they return the length of the full output and the destination holds the output and its terminator cut to n bytes; sprintf the same without a limit. Outside that domain (no terminator when the output does not fit, '0' with '*', a precision that cuts digits, '%' at the end of the format, ...) the deviations are stated.", "quantifier": "every format string, argument list, buffer size and memory", "why_tests_cant": "format strings are an unbounded language", "anchors": ["lib/stdio/vsnprintf.c"]}
{"id": "C32", "title": "Written data reads back equal", "statement": "For every finite datum built of numbers in int range, the characters with codes 0, 7-13 and 32-127, strings of any bytes, booleans, the empty list, symbols and keywords whose names can be read and contain no backslash or control character, pairs and vectors, the text produced by write (core:write) reads back with the core reader as an equal? datum, whatever delimiter follows it. Known deviations: other characters, numbers outside the int range, names with a backslash and lists with an element *circular* do not read back.", "quantifier": "every finite datum of any depth and size", "why_tests_cant": "unbounded nesting, every string content", "anchors": ["src/display.c: display_helper, fdwrite_string, fdwrite_char", "src/reader.c: reader_read_sexp_, reader_read_list, reader_read_string, reader_read_identifier_or_number"]}
{"id": "C33", "title": "The reader ignores layout and comments", "statement": "White space, line comments and (closed) block comments between tokens do not change the datum read; the reader takes exactly the text of one datum from the input and leaves all existing data unchanged.", "quantifier": "every datum text and every insertion of white space/comments", "why_tests_cant": "unbounded placements", "anchors": ["src/reader.c: reader_read_sexp_, reader_eat_whitespace, reader_read_line_comment, reader_read_block_comment"]}
{"id": "C34", "title": "The reader makes progress", "statement": "Reading a text of a datum, or a whole file of data separated by layout, terminates within a number of steps linear in its length, takes exactly that text from the input and yields the data in order. Reading any other ASCII input whose block comments are closed and whose free-standing dots are followed by a datum terminates as well, within a number of steps linear in its length: it raises an error, overruns a buffer, or returns having taken at least one character off the front of the input, with every earlier object unchanged. Reading a whole file of such contents terminates, and if it returns, returns a proper list. Known deviations: a block comment that is not closed makes the reader run forever, a string that is not closed overruns the reader's buffer, and a carriage return or vertical tab outside of a list yields the number 0 without being consumed.", "quantifier": "every ASCII byte sequence with closed block comments and dots that are followed by a datum, of any length, in every state of the interpreter that is ready to read", "why_tests_cant": "inputs are unbounded byte sequences", "anchors": ["src/reader.c"]}
{"id": "C35", "title": "Evaluation agrees with the Scheme semantics", "statement": "For programs in the core language (constants, quote, variables, global variables found by name or resolved, if, begin, lambda with and without a rest parameter, set!, definitions of variables and procedures in bodies, and calls of closures and of the builtins on pairs, lists, numbers, characters and vectors, with any operator) without macros, the evaluator returns the value and leaves the objects that the big-step semantics with lexical scoping prescribes, and leaves the interpreter stack and the caller's registers as it found them, however often the collector runs. An operator that is neither a variable nor a lambda expression is evaluated twice, before and after the arguments. While the value of a definition in a body is computed its name is bound to its own symbol, and a procedure made inside a call there keeps seeing the symbol.", "quantifier": "every program of the core language, every environment and store, every schedule of collections, provided memory and stack last", "why_tests_cant": "programs and their executions are unbounded", "anchors": ["src/eval-apply.c: eval_apply, apply_builtin, call_lambda, pairlis, make_closure_", "src/module.c: module_variable"]}
{"id": "C36", "title": "Tail calls run in constant stack", "statement": "A tail call (last expression of a body, branch of if, last of begin) does not keep an interpreter stack frame: loops written as tail calls run in bounded stack for any number of iterations.", "quantifier": "every number of iterations", "why_tests_cant": "unbounded iteration counts", "anchors": ["src/eval-apply.c: eval_apply (apply/eval/begin/if transitions), push_cc"]}
{"id": "C37", "title": "call/cc captures and reinstates the control stack", "statement": "Invoking a captured continuation reinstates exactly the interpreter stack saved at capture and delivers the passed value there, from any state and any depth and any number of times, once its receiver has returned; collections and the evaluation of core-language expressions in between leave the saved stack as it was.", "quantifier": "every stack depth at capture and at invocation, every number of re-entries, every collection and every core-language evaluation in between", "why_tests_cant": "depths and re-entry histories are unbounded", "anchors": ["src/eval-apply.c: call_with_current_continuation, continuation case of apply", "src/vector.c"]}
{"id": "C38", "title": "Arity and argument binding", "statement": "Calling a closure or a lambda expression binds each formal to the corresponding argument and the rest formal to the list of the remaining ones. When the counts do not match no body is run: an error is signalled, wrong-number-of-args for a closure without a rest formal, for a lambda expression with too many arguments and for a builtin. (Too few arguments for a closure with a rest formal or for a lambda expression signal not-a-pair instead: stated.)", "quantifier": "every formals list and every argument list", "why_tests_cant": "lists of any length", "anchors": ["src/eval-apply.c: check_formals, pairlis, call_lambda"]}
{"id": "C39", "title": "Memory allocation in the C library gives disjoint aligned blocks", "statement": "In any history of malloc, calloc, realloc, free and stores into blocks, as long as the kernel grants the memory and sizes do not wrap around: blocks in use are aligned, not null and pairwise disjoint for their whole requested size; realloc keeps the contents; calloc memory is zero; stores to one block change no other. (A refused request, a size that wraps, and a calloc product that wraps are not noticed by the code.)", "quantifier": "every history of allocation requests", "why_tests_cant": "histories unbounded, alignment/rounding boundaries", "anchors": ["lib/linux/malloc.c", "lib/stdlib/calloc.c", "lib/stdlib/realloc.c", "lib/linux/brk.c", "lib/stdlib/free.c"]}
{"id": "C40", "title": "The compiler's encodings of numbers are little-endian two's complement and hexadecimal", "statement": "mescc's int->bv8/16/32/64 turn every integer the interpreter can hold into that many bytes whose little-endian value is the integer modulo 2^(8n), so the unsigned and the two's-complement reading give the integer back when it fits. number->string gives the text of every integer but the most negative one in every base from 2 to 36; dec->hex and hex2:immediate, 1, 2, 4 give its hexadecimal text; hex2:immediate8 gives two 32-bit halves that make up every integer not below -2^32. (Below -2^32 the halves are those of another integer, and the text of the most negative integer is undefined behaviour: refuted.)", "quantifier": "every 64-bit integer, base and interpreter state", "why_tests_cant": "2^64 values, sign handling", "anchors": ["module/mescc/bytevectors.scm", "module/mescc/as.scm: int->bv64, int->bv32, int->bv16, int->bv8, dec->hex", "module/mescc/M1.scm: hex2:immediate, hex2:immediate8", "mes/module/mes/scm.mes: number->string, remainder, abs"]}
{"id": "C41", "title": "getopt and getopt_long deliver the options of the command line", "statement": "A program that calls getopt or getopt_long until the answer is EOF receives exactly the options of the command line, in order: each short option with its argument (the rest of the word, the next word, or nothing if optional), each long option named in full or by a unique abbreviation with its argument, its index and the variable it sets, and '?' for each unknown or ambiguous option, missing argument or argument that is not allowed. Then optind is the index of the first word that is not an option, and every call is defined. (Contrary to the comments in the code, words are not permuted and \"--\" does not end the options: refuted.)", "quantifier": "every command line, option string without byte 255 and table of long options whose values are not -1", "why_tests_cant": "unbounded words, groups and abbreviations, with state kept between calls", "anchors": ["lib/posix/getopt.c: _getopt_internal, getopt, getopt_long"]}
{"id": "C42", "title": "readdir delivers every directory entry once, in order", "statement": "A program that opens a directory and calls readdir until it answers null sees exactly the entries the kernel delivers that are not deleted (inode not 0), each with its inode number and name, once and in order, however the kernel groups the entries into blocks. At the end of the directory errno is as before the last call; after an error of the kernel errno is that error. Further calls answer null again, and nothing outside the block is read.", "quantifier": "every directory contents, every size of the block and every grouping of the entries by the kernel, including an error at any point", "why_tests_cant": "the grouping is the kernel's choice; unbounded directories", "anchors": ["lib/dirent/readdir.c: readdir", "lib/dirent/opendir.c: opendir", "lib/linux/getdents.c: getdents", "include/dirent.h: struct dirent, DIR"]}
{"id": "C43", "title": "Programs are found in the first directory of PATH that has them", "statement": "execvp and execlp execute a name that contains a slash as it is. For another name they search the elements of PATH in order and execute the file in the first directory where it is executable; no memory but the search buffer changes. If no directory has it the call fails with ENOENT. execl hands the arguments to the new program. (False of the code, and refuted: without a colon at the end of PATH an unsuccessful search goes on in the memory behind PATH, so a program that is in no directory of PATH can be executed; an empty element is the root directory; an unset PATH is a null pointer read; execl replaces the first argument by the file name.)", "quantifier": "every PATH, file name, file system and memory in which the candidate names fit in the buffer", "why_tests_cant": "unbounded paths, any file system and any contents of the memory behind the string", "anchors": ["lib/mes/search-path.c: search_path", "lib/posix/execvp.c: execvp", "lib/posix/execl.c: vexec, execl", "lib/posix/execlp.c: execlp"]}
{"id": "C44", "title": "Programs run form by form as the Scheme top level does", "statement": "Running a program, a list of forms as the reader returns it, evaluates its top-level forms in order and returns the value of the last one. (define x e) and (define (f . formals) body ...) create the global variable if it does not exist, or else assign to it, and later forms see the value: also procedures that were defined earlier. (begin ...) at the top level is replaced by its forms. After the run the table of global variables holds exactly the variables that existed before and those defined, and the caller's stack and registers are as before, however often the collector runs. Before a form is evaluated each free variable that is global already is replaced by a reference to it; a formal of a lambda expression or definition is never replaced, nor are, in addition, variables of that name further right in the same list. While the value of (define x e) is computed x is bound to its own symbol. Of the forms in a top-level (begin ...) a (begin ...) at the start is an expression, in which definitions are not top-level ones.", "quantifier": "every program of the core language without macros, every initial set of global variables, every store and schedule of collections, provided memory and stack last", "why_tests_cant": "programs, their executions and the points at which memory is collected are unbounded", "anchors": ["src/eval-apply.c: eval_apply (begin_expand, macro_expand, eval_define), expand_variable, expand_variable_, add_formals", "src/module.c: module_define_x, module_variable", "src/hash.c: hash_set_x, hashq_get_handle", "src/mes.c: main"]}
{"id": "C45", "title": "Formatted output to a file writes the formatted text", "statement": "fprintf and vfprintf write to the file exactly the text that ISO C prescribes for the format and the arguments, byte by byte and in order, and nothing to any other file; they change no memory of the program. This is the text that sprintf stores. (False of the code, and refuted: the result is 0 and not the number of characters; a string with a precision larger than its length is padded up to the precision; a second 'l' writes a message to the error output; zeros come before the sign, and a precision cuts digits off; %n does not count what %c printed; a '%' at the end of the format makes it read past the format.)", "quantifier": "every format, argument list, file and memory in which the strings do not overlap the block in which numbers are formatted", "why_tests_cant": "formats, arguments, widths and precisions are unbounded in number and length", "anchors": ["lib/stdio/vfprintf.c: vfprintf", "lib/stdio/fprintf.c: fprintf", "lib/stdio/fputc.c: fputc", "lib/mes/fdputc.c: fdputc"]}
{"id": "C46", "title": "Wrong programs signal the right error, and only there", "statement": "If evaluating an expression goes wrong, the interpreter signals the error that names what went wrong, and does so after everything that precedes it in the order of evaluation and before anything that follows. A variable without a binding or without a value: unbound-variable, with its name. A call with the wrong number of arguments: wrong-number-of-args, with a message and the procedure. A call of a number, a character, a truth value or the empty list: wrong-type-arg, with a message and that value. car or cdr of something that is not a pair: not-a-pair, with the value and the name of the procedure; likewise set! of a variable without a binding. Arithmetic and comparison on something that is not a number: not-a-number, with the first such argument. (error key value): that key and that value. An error inside a test, an argument, an operator, the value of an assignment or definition, or a body is the error of the whole expression. Assignments made before the error stay made, the heap is in order when the error is signalled, and no expression both has a value and signals an error.", "quantifier": "every expression of the core language, every environment, store and schedule of collections, provided memory and stack last and messages of 64 bytes are allowed", "why_tests_cant": "expressions, the places in them where the error occurs and the points at which memory is collected are unbounded", "anchors": ["src/eval-apply.c: eval_apply, check_formals, check_apply, set_env_x, apply_builtin", "src/core.c: error, car, cdr", "src/math.c: assert_number", "src/math.c: plus, minus, multiply, greater_p, less_p, is_p, logand, logior, logxor, lognot, modulo"]}
{"id": "C47", "title": "sscanf and fscanf read what the template describes", "statement": "If the string is what the template asks for - the same characters, white space for white space, % for %%, any character for %c, an optionally signed decimal number with optional white space before it for %d, %i and %u - then sscanf returns the number of conversions and stores the characters and numbers, in order, at the addresses given; if the string ends early, it stores those read until then and returns their number. It stores nothing else. In particular sscanf, with the same format, reads back the numbers that sprintf printed with a format of %d and separators. fscanf, with a template of characters and one number, stores the number and leaves the file just after it.", "quantifier": "every template of these directives, every string or file that matches it, every memory with room for the results, every list of numbers and separators; magnitudes up to 2147483560", "why_tests_cant": "templates, inputs, numbers and layouts of memory are unbounded; a store that goes astray depends on where the results are", "anchors": ["lib/stdio/vsscanf.c: vsscanf", "lib/stdio/sscanf.c: sscanf", "lib/stdio/vfscanf.c: vfscanf", "lib/mes/abtol.c: abtol"]}
{"id": "C48", "title": "A program that goes wrong signals the error, after everything before it was done", "statement": "A program is run form after form. If a form at the top level, an expression or a definition, signals an error, the evaluator signals exactly that error with that irritant; by then the forms before it, including those earlier in the same top-level (begin ...), have had all their effects on variables, pairs, vectors and definitions, the form itself those that precede the error (a new variable it defines already exists), and no later form has had any effect. A program does not both reach its end and signal an error.", "quantifier": "every list of top-level forms (definitions, expressions, begin) that the semantics says goes wrong, every state of the interpreter and heap layout that represents it, every moment at which the collector runs", "why_tests_cant": "programs, heap layouts and the moments at which the collector moves everything are unbounded", "anchors": ["src/eval-apply.c: eval_apply", "src/eval-apply.c: expand_variable", "src/eval-apply.c: make_closure_", "src/core.c: error"]}
{"id": "C49", "title": "Procedures of the Scheme library compute what their names say", "statement": "When the interpreter has run the definitions of the library, (map f lst) and (map1 f lst) return a new list of what f returns for the elements, in order; (list-tail lst k) returns the k-th tail itself, not a copy; (list-head lst k) returns a new list of the first k elements; (srfi-1:member x lst eq) returns the tail that starts with the first element for which eq holds, or #f; cadr, caddr and the others of that family follow the letters of their name; (not x) is #t for #f only; (remainder n m) for positive m has the sign of n; (even? n) is right for negative numbers also, (odd? n) for numbers that are not negative (for negative odd numbers it is #f, which is refuted). None of them changes anything that existed before, the budget of stack list-tail and member need does not depend on the length of the list, and it makes no difference whether a procedure was defined before.", "quantifier": "every list, every number that fits, every procedure passed as an argument that only computes a value, every environment of global variables in which the primitive procedures have their names", "why_tests_cant": "lists, numbers and the procedures passed are unbounded", "anchors": ["mes/module/mes/boot-0.scm: map1, map, not", "mes/module/mes/base.mes: cadr ... cddddr", "mes/module/mes/scm.mes: list-head, list-tail, remainder, even?, odd?", "mes/module/srfi/srfi-1.mes: srfi-1:member", "src/eval-apply.c: eval_apply"]}
