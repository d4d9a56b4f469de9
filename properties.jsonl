{"id": "C01", "title": "Values are unambiguous", "statement": "A 32-bit value word denotes exactly one of: a number, or a reference of one kind (builtin, list/tuple/dict, string, function). Wrapping an aligned object offset as a reference and unwrapping it gives back the same kind and the same offset; wrapping a number and unwrapping it gives back the same number (any NaN becomes the one canonical NaN). No number is ever taken for a reference, and no reference for a number.", "quantifier": "every 32-bit float bit pattern (including subnormals, infinities and all NaNs), every reference kind and every 4-aligned offset below 8 MiB", "why_tests_cant": "There are 2^32 patterns and the danger is in a handful of corner patterns (negative NaNs, -inf, offset 0) that sampling does not hit.", "anchors": ["snek.h: snek_is_float, snek_is_ninf, snek_poly_type, snek_poly_offset", "snek-poly.c: snek_poly, snek_float_to_poly", "snek-memory.c: snek_offset_to_poly"]}
{"id": "C02", "title": "Ordering of simple values is a total preorder", "statement": "Comparing numbers (including NaN and infinities), strings, functions, builtins and None with each other with the built-in ordering is reflexive, antisymmetric up to equality, transitive and total; values of different kinds are ordered by kind, strings bytewise, numbers by value.", "quantifier": "all triples of non-list values", "why_tests_cant": "A law over all triples; dictionaries silently lose keys if it fails for a single triple.", "anchors": ["snek-poly.c: snek_poly_cmp", "snek-string.c: strcmp use"]}
{"id": "C03", "title": "List equality is structural", "statement": "Two lists or tuples compare equal exactly when they have the same length and their elements are pairwise equal, recursively.", "quantifier": "all pairs of finite nested list values of any length and depth", "why_tests_cant": "Unbounded nesting and length.", "anchors": ["snek-list.c: snek_list_cmp", "snek-poly.c: snek_poly_cmp, snek_poly_equal"]}
{"id": "C04", "title": "List ordering is lexicographic", "statement": "a < b, a > b, a <= b, a >= b on lists or tuples agree with the lexicographic order; in particular exactly one of a < b, a == b, a > b holds.", "quantifier": "all pairs of lists of ordered values", "why_tests_cant": "Ordering is used as the dictionary search order; a wrong answer on one pair of lengths breaks unrelated lookups.", "anchors": ["snek-list.c: snek_list_cmp", "snek-exec.c: snek_binary"]}
{"id": "C05", "title": "Indexing follows the Python rule", "statement": "x[i] on a list, tuple or string of length n gives element i for 0 <= i < n, element n+i for -n <= i < 0, and raises an error for any other index; it never reads outside the sequence.", "quantifier": "every length up to the largest object and every integer index a number can carry", "why_tests_cant": "Off-by-one and wrap-around at the ends of the index range.", "anchors": ["snek-list.c: _snek_list_ref", "snek-string.c: snek_string_get"]}
{"id": "C06", "title": "Slicing follows the Python rule", "statement": "x[start:end:stride] on a list, tuple or string gives exactly the elements at positions start, start+stride, ... strictly before end (after end for a negative stride), with omitted, negative and out-of-range bounds adjusted as in Python; the result has the same kind as x.", "quantifier": "every sequence, every combination of given and omitted bounds, every non-zero stride", "why_tests_cant": "Three interacting signed parameters with unbounded ranges; bugs show only on particular sign and remainder combinations.", "anchors": ["snek-exec.c: snek_slice_canon, snek_slice_start, snek_slice_step, snek_slice", "snek-list.c: snek_list_slice", "snek-string.c: snek_string_slice", "snek.h: snek_slice_t"]}
{"id": "C07", "title": "Slice arithmetic never overflows", "statement": "Computing the number of selected elements never overflows the machine integer, and no explicit bound is mistaken for an omitted one.", "quantifier": "every sequence length, every bound and stride a number can carry, on both offset widths", "why_tests_cant": "The failing strides are those within a sequence length of the integer limit.", "anchors": ["snek-exec.c: snek_slice_canon", "snek.h: SNEK_SOFFSET_NONE"]}
{"id": "C08", "title": "Concatenation builds a new list and leaves operands alone", "statement": "a + b on two lists (or two tuples) gives a new object whose elements are those of a followed by those of b and whose kind is that of a; neither operand changes, and later changes to the result do not affect them.", "quantifier": "all heaps and all pairs of list objects, including a + a", "why_tests_cant": "Aliasing: the interesting states are those where operands share storage.", "anchors": ["snek-list.c: snek_list_plus, snek_list_make", "snek-exec.c: snek_binary"]}
{"id": "C09", "title": "In-place extension is seen through every alias", "statement": "a += b on a list extends the object a refers to, keeping its identity, with the elements of b at the time of the statement (also when b is a itself); every alias of a sees the new elements, and b is unchanged when it is a different object. On tuples a new tuple is made.", "quantifier": "all heaps, all alias patterns, all capacities", "why_tests_cant": "Depends on the allocation history (spare capacity) and aliasing.", "anchors": ["snek-list.c: snek_list_append, snek_list_resize", "snek-exec.c: snek_assign, snek_binary"]}
{"id": "C10", "title": "List repetition", "statement": "xs * n and n * xs give n copies of xs one after the other, for lists and tuples, as a new object of the same kind.", "quantifier": "all lists, all counts", "why_tests_cant": "Unbounded lengths; size arithmetic may wrap.", "anchors": ["snek-list.c: snek_list_times", "snek-exec.c: snek_binary"]}
{"id": "C11", "title": "A list is a growable sequence under any history", "statement": "Starting from any list literal, any sequence of element stores, += extensions and deletions leaves the list equal to the mathematical sequence the same operations give; spare capacity and re-allocation are never observable.", "quantifier": "all finite histories of list operations with any values", "why_tests_cant": "The state includes capacity left over from earlier growth and shrinkage.", "anchors": ["snek-list.c: snek_list_alloc, snek_list_resize, _snek_list_ref, snek_list_append, snek_list_del"]}
{"id": "C12", "title": "A dictionary is a finite map", "statement": "For keys that are numbers or strings, any history of stores and deletions leaves a dictionary in which d[k] is the last value stored under k, k in d tells whether k was stored and not deleted, len(d) is the number of distinct live keys, and each key is held once.", "quantifier": "all finite histories of dictionary operations, all numbers (including NaN and signed zeros) and strings as keys", "why_tests_cant": "Correctness of binary search depends on the whole insertion history.", "anchors": ["snek-list.c: _snek_list_ref, snek_list_del, snek_list_imm", "snek-exec.c: snek_binary"]}
{"id": "C13", "title": "Tuple keys work like other keys", "statement": "A dictionary whose keys include tuples of different lengths finds every stored key.", "quantifier": "all histories with tuple keys", "why_tests_cant": "Needs particular pairs of keys inserted in a particular order.", "anchors": ["snek-list.c: _snek_list_ref, snek_list_cmp"]}
{"id": "C14", "title": "Mutable keys are rejected and tuples never change", "statement": "Storing under a key that is a list or a dictionary raises an error and leaves the dictionary unchanged; no list operation changes the elements of a tuple.", "quantifier": "all values as keys, all operations applied to tuples", "why_tests_cant": "Ranges over all operations and values.", "anchors": ["snek-list.c: snek_is_mutable, _snek_list_ref, snek_list_append, snek_list_del, snek_list_times, snek_list_plus"]}
{"id": "C15", "title": "A failed update changes nothing", "statement": "If d[k] += v (or another augmented assignment or a deletion) raises an error because k is not in d, d is unchanged.", "quantifier": "all dictionaries, missing keys and operators", "why_tests_cant": "Ranges over all dictionary states.", "anchors": ["snek-exec.c: snek_assign", "snek-list.c: _snek_list_ref, snek_list_del"]}
{"id": "C16", "title": "String operations", "statement": "s + t is the concatenation, s * n (n >= 0) is n copies, s[i] is a one-character string, ord(chr(c)) = c; operands are never changed.", "quantifier": "all strings, counts and character codes", "why_tests_cant": "Unbounded lengths; length arithmetic may wrap.", "anchors": ["snek-string.c: snek_string_cat, snek_string_catn, snek_string_times, snek_string_get, snek_string_make", "snek-builtin.c: snek_builtin_ord, snek_builtin_chr"]}
{"id": "C17", "title": "Membership test", "statement": "x in s is true exactly when x equals an element of the list or tuple s, a key of the dictionary s, or is a substring of the string s; not in is its negation; any other right operand is an error.", "quantifier": "all values x and containers s", "why_tests_cant": "Unbounded containers and all value kinds.", "anchors": ["snek-exec.c: snek_binary"]}
{"id": "C18", "title": "String formatting consumes exactly its arguments", "statement": "fmt % args replaces each conversion in order by one argument, copies all other text unchanged, turns %% into %, and raises an error exactly when the number of arguments differs from the number of conversions.", "quantifier": "all format strings and argument tuples", "why_tests_cant": "Unbounded format strings.", "anchors": ["snek-string.c: snek_string_interpolate", "snek-print.c: snek_poly_format"]}
{"id": "C19", "title": "Names are interned faithfully", "statement": "After any sequence of names has been read, asking for a name's id always gives the same id, different names have different ids, and the id maps back to the name; builtin names keep their fixed ids.", "quantifier": "all histories of names", "why_tests_cant": "Any history and any number of names.", "anchors": ["snek-name.c: snek_name_id, snek_name_string, snek_name_intern"]}
{"id": "C20", "title": "Variable scoping", "statement": "In a function, assigning to a name that is neither a formal nor declared global creates a local and leaves the global of that name untouched; reading a name finds the local if there is one and the global otherwise; after a global declaration both read and assignment act on the global; locals vanish at return.", "quantifier": "all frames, names and histories of assignments", "why_tests_cant": "Any number of variables in any insertion order.", "anchors": ["snek-frame.c: snek_variable_lookup, snek_frame_lookup, snek_id_ref, snek_frame_mark_global, snek_id_is_local, snek_frame_push, snek_frame_pop", "snek-exec.c: snek_assign"]}
{"id": "C21", "title": "Call argument binding", "statement": "A call binds positional arguments to the formals in order and named arguments to the formal of that name, each formal at most once; it raises an error when an argument has no formal, a formal is bound twice, or a formal without default is not bound, and otherwise runs the body with exactly those bindings plus defaults for the rest.", "quantifier": "all formal lists, all call shapes", "why_tests_cant": "All mixtures of positional and named arguments.", "anchors": ["snek-func.c: snek_func_push, snek_func_actual", "snek-exec.c: snek_exec"]}
{"id": "C22", "title": "Deleting a global removes only that global", "statement": "del x makes x undefined and leaves every other variable with its value.", "quantifier": "all sets of globals and all positions of x among them", "why_tests_cant": "Depends on the position of x and on what was defined after it.", "anchors": ["snek-frame.c: snek_variable_delete"]}
{"id": "C23", "title": "Every instruction is walked at its true length", "statement": "Walking a compiled code object instruction by instruction visits exactly the instructions that were emitted, so patching and garbage collection see each operand at its place.", "quantifier": "every sequence of emitted instructions", "why_tests_cant": "Depends on the byte values of operands.", "anchors": ["snek-code.c: snek_op_operand_size, snek_code_patch_forward", "snek-func.c: snek_code_mark, snek_code_move"]}
{"id": "C24", "title": "Number literals are compiled faithfully", "statement": "The value pushed by the code for a number literal is the literal's value, whichever of the compact and the full encoding is used.", "quantifier": "every float", "why_tests_cant": "All floats near the compact range.", "anchors": ["snek-code.c: snek_code_add_number", "snek-exec.c: snek_op_int, snek_op_num"]}
{"id": "C25", "title": "Expressions evaluate by precedence, left to right", "statement": "Running the code generated for an expression leaves its value by the ordinary recursive semantics (operands left to right, the usual precedence), leaves the operand stack as it was, and makes the same side effects in the same order.", "quantifier": "all expressions of any depth, all starting states", "why_tests_cant": "Unbounded expression trees.", "anchors": ["snek-gram.ll: expression rules", "snek-parse.c: binop_first, binop_second", "snek-code.c", "snek-exec.c: snek_exec"]}
{"id": "C26", "title": "Short-circuit evaluation", "statement": "a and b evaluates b only when a is true and gives a otherwise; a or b evaluates b only when a is false and gives a otherwise.", "quantifier": "all operand expressions, also nested", "why_tests_cant": "Unbounded nesting; evaluation has effects.", "anchors": ["snek-gram.ll: expr-or, expr-and", "snek-parse.c: short_second", "snek-code.c: snek_code_patch_branch"]}
{"id": "C27", "title": "Chained comparison", "statement": "a op1 b op2 c ... is a op1 b and b op2 c and ..., each operand evaluated at most once, stopping at the first false link, wherever the expression appears.", "quantifier": "all chains of any length, all operators, all positions in a program", "why_tests_cant": "Unbounded chains; failures depend on code position.", "anchors": ["snek-gram.ll: expr-cmp", "snek-code.c: snek_code_add_forward, snek_code_patch_forward", "snek-exec.c: snek_op_chain_eq .."]}
{"id": "C28", "title": "Statements run in structured order", "statement": "if/elif/else, while, for, break, continue and sequencing run as in Python: break leaves the innermost loop, continue goes to its next test, else parts run exactly when the condition says so, and the operand stack is level at each statement boundary.", "quantifier": "all statement trees of any nesting, all starting states, all numbers of iterations", "why_tests_cant": "Unbounded nesting and iteration.", "anchors": ["snek-gram.ll: compound-stat rules", "snek-code.c: snek_code_patch_forward, snek_code_patch_branch", "snek-exec.c: snek_exec"]}
{"id": "C29", "title": "A function without return yields None", "statement": "A function whose execution reaches the end of its body without executing return returns None.", "quantifier": "all function bodies, all arguments", "why_tests_cant": "Depends on the last statement of the body and on the path taken.", "anchors": ["snek-gram.ll: command (DEF)", "snek-exec.c: snek_op_return, snek_op_null"]}
{"id": "C30", "title": "Errors leave the interpreter reusable", "statement": "After any command, whether it ends normally or with an error in any nested call, the operand stack is back at its earlier depth and no function frame is left.", "quantifier": "all code, all error points", "why_tests_cant": "All crash points.", "anchors": ["snek-exec.c: snek_exec", "snek-frame.c: snek_frame_pop"]}
{"id": "C31", "title": "Counting loops", "statement": "for i in range(a, b, s) runs its body for a, a+s, a+2s, ... while below b (above b for negative s), in order.", "quantifier": "all start, limit and step values", "why_tests_cant": "Rounding makes the result depend on magnitudes.", "anchors": ["snek-exec.c: snek_range_start, snek_range_step"]}
{"id": "C32", "title": "Iteration visits every element once", "statement": "for x in s runs its body once for each element of a list or tuple, each character of a string, each key of a dictionary, in order.", "quantifier": "all containers with all element values", "why_tests_cant": "Depends on element values.", "anchors": ["snek-exec.c: snek_in_step"]}
{"id": "C33", "title": "Garbage collection is unobservable", "statement": "A collection, incremental or full, leaves the value of every variable, operand and constant of the running program, seen through any chain of element accesses, exactly as it was.", "quantifier": "all heaps, shapes (sharing, cycles), live sets, pool sizes and relocation-window sizes", "why_tests_cant": "Corruption appears only for particular layouts at the moment of collection.", "anchors": ["snek-memory.c: snek_collect, walk, snek_mark_block_addr, move_map, note_chunk, snek_move_block_offset", "snek-list.c: snek_list_mark, snek_list_move", "snek-frame.c: snek_frame_mark, snek_frame_move", "snek-func.c: snek_code_mark, snek_code_move"]}
{"id": "C34", "title": "A full collection reclaims everything unreachable", "statement": "After a full collection the used space is exactly the total size of the reachable objects, packed from the start of the pool; allocation fails only when the live objects plus the request exceed the pool.", "quantifier": "all heaps and request sizes", "why_tests_cant": "Depends on layout; needs several passes when there are more live objects than relocation slots.", "anchors": ["snek-memory.c: snek_collect, snek_alloc"]}
{"id": "C35", "title": "Allocated storage is fresh", "statement": "A successful allocation returns zeroed, aligned storage inside the pool that overlaps no live object.", "quantifier": "all heaps, all request sizes", "why_tests_cant": "Depends on heap state; size rounding may wrap.", "anchors": ["snek-memory.c: snek_alloc, snek_size_round"]}
{"id": "C36", "title": "Collection ends", "statement": "A collection always ends after finitely many passes, at most one per relocation window plus one.", "quantifier": "all heaps, cyclic ones included, any window size", "why_tests_cant": "Termination over all inputs.", "anchors": ["snek-memory.c: snek_collect, walk"]}
{"id": "C37", "title": "Constants in code survive collection", "statement": "A string constant used by a defined function is still the same string after any number of collections.", "quantifier": "all functions, all code shapes", "why_tests_cant": "Depends on the byte layout of the code and on when collection happens.", "anchors": ["snek-func.c: snek_code_mark, snek_code_move", "snek-code.c: snek_op_operand_size"]}
{"id": "C38", "title": "Operations do not use moved objects", "statement": "An operation that allocates uses its operands at their current place even if the allocation moved them.", "quantifier": "all heap layouts at the moment of the operation", "why_tests_cant": "Only layouts where the allocation triggers a move show it.", "anchors": ["snek-string.c: snek_string_times, snek_string_catn", "snek-list.c: snek_list_plus, snek_list_append, snek_list_del"]}
{"id": "C39", "title": "Words are split at their boundaries", "statement": "A keyword or name token is the longest run of name characters; is not and not in are recognised only as whole words.", "quantifier": "all input texts", "why_tests_cant": "Any text; failures need a particular word after not/is.", "anchors": ["snek-lex.c: snek_lex, trailing, is_name_first, is_name"]}
{"id": "C40", "title": "Operators lex by longest match", "statement": "Each operator token is the longest operator that starts at that point, and the text following it is untouched.", "quantifier": "all input texts", "why_tests_cant": "Any text may follow.", "anchors": ["snek-lex.c: snek_lex, trailing (tables)"]}
{"id": "C41", "title": "Number tokens", "statement": "A number token is digits with optional underscores, an optional fraction and an optional exponent, and nothing else is accepted as one.", "quantifier": "all input texts", "why_tests_cant": "Unbounded texts.", "anchors": ["snek-lex.c: number"]}
{"id": "C42", "title": "Block structure tokens balance", "statement": "At the end of any command the number of block-open tokens equals the number of block-close tokens, a close is only to an earlier indentation, and other indentations are errors.", "quantifier": "all input texts", "why_tests_cant": "Unbounded nesting of indentation.", "anchors": ["snek-lex.c: snek_lex (indent handling)", "snek-parse.c"]}
{"id": "C43", "title": "Lexing ends", "statement": "Reading a token always finishes on finite input.", "quantifier": "all finite inputs, with or without a final newline", "why_tests_cant": "Non-termination on particular endings.", "anchors": ["snek-lex.c: comment, snek_lex, number, string"]}
{"id": "C44", "title": "String literals", "statement": "A quoted literal denotes the characters between the quotes with escapes replaced; any string of non-NUL characters can be written as a literal.", "quantifier": "all literal bodies", "why_tests_cant": "Unbounded texts.", "anchors": ["snek-lex.c: string, hex"]}
{"id": "C45", "title": "Push-back never overflows", "statement": "The lexer never pushes back more characters than its push-back buffer holds.", "quantifier": "all input texts", "why_tests_cant": "A memory-safety bound over all inputs.", "anchors": ["snek-lex.c: unlexchar, trailing"]}
{"id": "C46", "title": "Line editing", "statement": "What a completed line delivers is the typed characters with erase and kill applied, never more than the buffer holds, followed by a newline; an interrupted line delivers nothing.", "quantifier": "all key sequences", "why_tests_cant": "Any history of keys.", "anchors": ["snek-io.c: snek_io_getc"]}
{"id": "C47", "title": "Random numbers", "statement": "Seeding fixes the whole sequence of random results; randrange(n) lies in [0, n), and random() in [0, 1).", "quantifier": "all seeds, all n, all draws", "why_tests_cant": "The failing states are a tiny fraction of the generator's states.", "anchors": ["snek-random.c", "snek-random-small.c"]}
{"id": "C48", "title": "Integer mathematics", "statement": "gcd(a,b) is the greatest common divisor, factorial(n) the factorial, small integer powers are exact.", "quantifier": "all integers in the exactly representable range", "why_tests_cant": "All pairs.", "anchors": ["snek-math.c: gcdf, factorialf", "snek-pow.c: ipow"]}
{"id": "C49", "title": "Bitwise operators", "statement": "& | ^ ~ << >> on integers give the two's complement results.", "quantifier": "all integers in range", "why_tests_cant": "Rounding of results above 24 bits.", "anchors": ["snek-exec.c: snek_binary, snek_op_lnot", "snek-poly.c: snek_float_to_int"]}
{"id": "C50", "title": "Integer arithmetic is exact in the 24-bit range", "statement": "+, -, *, // and % on integers whose operands and result lie within 2^24 give the exact mathematical (floor) results.", "quantifier": "all such integers", "why_tests_cant": "2^48 pairs.", "anchors": ["snek-exec.c: snek_binary"]}
{"id": "C51", "title": "No operation writes outside its object", "statement": "Repeating or growing a sequence never allocates less than it then writes: if the size cannot be represented the operation fails with an error.", "quantifier": "all sizes and counts, both offset widths", "why_tests_cant": "Wrap-around needs particular products.", "anchors": ["snek-list.c: snek_list_resize, snek_list_times", "snek-string.c: snek_string_times", "snek-memory.c: snek_alloc"]}
{"id": "C52", "title": "Calling a non-function is an error", "statement": "Calling None, a number, a string or a list raises an error.", "quantifier": "all values", "why_tests_cant": "All value words.", "anchors": ["snek-exec.c: snek_op_call, snek_call_builtin", "snek.h: snek_poly_to_builtin"]}
{"id": "C53", "title": "Formal parameter lists are checked", "statement": "A definition with more formals than supported, or with the same formal twice, is rejected without other effect.", "quantifier": "all formal lists", "why_tests_cant": "Unbounded lists.", "anchors": ["snek-gram.ll: formal", "snek-parse.c"]}
{"id": "C54", "title": "Only the first error is reported", "statement": "From a reset until the next reset at most one error message is printed, whatever errors occur.", "quantifier": "all sequences of errors", "why_tests_cant": "All histories.", "anchors": ["snek-error.c: snek_error_internal, snek_error_0"]}
{"id": "C55", "title": "Printing lists", "statement": "The printed form of a list, tuple or dictionary shows every element in order with its own brackets and separators, recursively.", "quantifier": "all finite nested values", "why_tests_cant": "Unbounded nesting.", "anchors": ["snek-print.c: snek_poly_format"]}
{"id": "C56", "title": "Line numbers", "statement": "The line number kept by the lexer is the number at the start of the command plus the number of line ends read so far (in the width of the counter), however many characters are pushed back.", "quantifier": "all texts, all points between tokens", "why_tests_cant": "The number depends on the whole history of reading and pushing back characters.", "anchors": ["snek-lex.c: lexchar", "snek-lex.c: unlexchar"]}
{"id": "C57", "title": "Operators on the wrong types are errors", "statement": "An operator applied to operands it is not defined for reports a type error naming them, gives None and changes nothing else.", "quantifier": "all operators, all operands of every kind", "why_tests_cant": "Every pair of kinds for every operator.", "anchors": ["snek-exec.c: snek_binary", "snek-error.c: snek_error_type_2"]}
{"id": "C58", "title": "Identity", "statement": "a is b holds for lists, functions and builtins exactly when both are the same object, however equal their contents; is not is its negation.", "quantifier": "all pairs of values", "why_tests_cant": "Unboundedly many values.", "anchors": ["snek-exec.c: snek_binary", "snek-poly.c: snek_poly_cmp"]}
{"id": "C59", "title": "Nested for loops do not disturb each other", "statement": "The hidden variables that keep the position of a for loop differ between loops at different nesting depths and never coincide with a variable of the program.", "quantifier": "all nesting depths, all names, both offset widths", "why_tests_cant": "A clash needs a particular combination of depths or a particular address of a name.", "anchors": ["snek.h: snek_for_tmp", "snek-code.c: snek_code_add_in_range, snek_code_add_in_enum", "snek-exec.c: snek_range_start, snek_range_step, snek_in_step"]}
{"id": "C60", "title": "An expression means what Python says it means", "statement": "Where snek and Python both accept an expression, the tree snek compiles is the one Python's precedence, associativity and chaining rules give: from the lowest, or, and, not, comparisons, |, ^, &, shifts, sums, products, unary operators, ** (right associative), and calls, indexes and slices.", "quantifier": "all sequences of tokens", "why_tests_cant": "Unboundedly many combinations of operators and nestings.", "anchors": ["snek-gram.ll: expr to expr_array_primary_p"]}
{"id": "C61", "title": "No expression is accepted with another meaning", "statement": "Every expression accepted is one of the grammar and compiled as that grammar's tree; no sequence of tokens has two trees; the lexer only produces tokens the parser's argument assumes.", "quantifier": "all sequences of tokens", "why_tests_cant": "A conflict resolved the wrong way shows only on particular neighbours.", "anchors": ["snek-gram.ll: expr to expr_array_primary_p", "snek-lex.c: snek_lex"]}
{"id": "C62", "title": "Statements and programs are read as Python reads them", "statement": "Simple and compound statements, suites on a line or in a block, elif and else, loops with else, function definitions with defaults: where snek and Python both accept a program it is the same tree, and each program has only one.", "quantifier": "all sequences of tokens", "why_tests_cant": "Nesting of blocks and of else branches is unbounded.", "anchors": ["snek-gram.ll: start to block_p"]}
{"id": "C63", "title": "Parsing ends", "statement": "The parser ends on every input, after a number of steps linear in the number of tokens.", "quantifier": "all sequences of tokens, correct or not", "why_tests_cant": "A loop needs a particular wrong input.", "anchors": ["snek-gram.ll: all productions", "snek-parse.c: snek_parse"]}
{"id": "C64", "title": "What may be assigned to", "statement": "Only a variable, an element, a slice-free index may be assigned to or deleted and only a bare name may name an argument; anything else is a syntax error, and the code for the object and the index is kept unchanged.", "quantifier": "all expressions, both offset widths", "why_tests_cant": "The decision looks at the last bytes of the code compiled, which any expression might happen to end with.", "anchors": ["snek-gram.ll: assign_named_p, extract in expr_stat_p", "snek-code.c: snek_code_get_prev, snek_code_delete_prev"]}
{"id": "C65", "title": "What is accepted is Python", "statement": "Every program snek accepts is a Python program with the same meaning.", "quantifier": "all sequences of tokens", "why_tests_cant": "Extra acceptance is invisible to tests made of correct programs.", "anchors": ["snek-gram.ll: statement and argument productions"]}
{"id": "C66", "title": "What is refused is not in the language", "statement": "Every expression of Python that uses only the operators and displays snek has is accepted.", "quantifier": "all sequences of tokens", "why_tests_cant": "Unboundedly many expressions.", "anchors": ["snek-gram.ll: expr_unary, expr_pow_p, small_stats_p, suite"]}
{"id": "C67", "title": "From tokens to effects", "statement": "A statement read from its tokens is compiled and run with the effect the language's evaluator gives to Python's tree of those tokens.", "quantifier": "all statements and all states", "why_tests_cant": "Composition of parser, compiler and virtual machine over unboundedly many programs.", "anchors": ["snek-gram.ll", "snek-code.c", "snek-exec.c: snek_exec"]}
{"id": "C68", "title": "fsum rounds once", "statement": "math.fsum of a list (or of the keys of a dictionary), when finite, is the real sum of all the numbers rounded once to the nearest number, whatever cancels on the way and in whatever order they come; it is finite whenever the absolute values add up to at most half the largest number.", "quantifier": "all lists of numbers, of any length", "why_tests_cant": "An error of one unit in the last place, in a sum of many numbers of very different sizes, needs the particular numbers that produce a tie.", "anchors": ["snek-math.c: snek_builtin_math_fsum"]}
{"id": "C69", "title": "fsum stays inside its list of partial sums", "statement": "math.fsum never reads or writes outside its list of partial sums and never uses a variable that has no value, and gives a result unless memory runs out.", "quantifier": "all lists of numbers including infinities and not-a-number", "why_tests_cant": "The list of partial sums only grows beyond four for sums of numbers of five very different sizes.", "anchors": ["snek-math.c: snek_builtin_math_fsum", "snek-list.c: snek_list_resize"]}
{"id": "C70", "title": "fsum treats overflow and infinities as Python does", "statement": "An infinity among the numbers is the sum; finite numbers whose sum is finite have it as result.", "quantifier": "all lists of numbers", "why_tests_cant": "Only sums near the largest number show it.", "anchors": ["snek-math.c: snek_builtin_math_fsum"]}
{"id": "C71", "title": "A number is read to within a few units in the last place", "statement": "A decimal text (digits, point, exponent) whose value lies in the normal range of floats is read as a finite float that differs from it by at most 15 parts in 2^24; digits that are all 0 read as 0.", "quantifier": "all well-formed texts with fewer than 768 mantissa digits, whatever follows the terminating byte", "why_tests_cant": "The error depends on the digits and on the powers of ten used; there are unboundedly many texts.", "anchors": ["snek-atof.c: atoff", "chips/atmega/snek-atmega.h: strtof"]}
{"id": "C72", "title": "Integers and decimals are read as the nearest number", "statement": "A text is read as the float nearest to what it denotes.", "quantifier": "all well-formed texts", "why_tests_cant": "Most short texts are read right; those that are not are rare.", "anchors": ["snek-atof.c: atoff"]}
{"id": "C73", "title": "Reading a number is defined for every text", "statement": "Reading a text as a number overflows no signed arithmetic and reads no byte after the terminating zero.", "quantifier": "all byte strings", "why_tests_cant": "It takes a text of about 800 characters to overflow the exponent.", "anchors": ["snek-atof.c: atoff", "snek-input.c: snek_builtin_float"]}
{"id": "C74", "title": "float reads signed numbers and rejects other texts", "statement": "float of a text with a sign is the signed number; float of a text that is no number is an error.", "quantifier": "all texts", "why_tests_cant": "Universal over texts; the host build uses the C library's strtof.", "anchors": ["snek-atof.c: atoff", "snek-input.c: snek_builtin_float"]}
{"id": "C75", "title": "A file is divided into tokens as the language says", "statement": "For a file whose text divides into lexemes, spaces, comments, blank lines, bracketed lines and indented blocks, the parser is given exactly those tokens, in order, INDENT and EXDENT where blocks open and close, each with the number of the line it ends in.", "quantifier": "all texts of any length, nesting of brackets up to 255 and indentation up to 255", "why_tests_cant": "It ranges over whole files: the state kept between tokens (pushed-back characters, indentation, brackets, line number) has to stay right for ever.", "anchors": ["snek-lex.c: snek_lex", "snek-parse.c: lex", "snek-gram.ll: suite"]}
{"id": "C76", "title": "From the text of a file to its tree", "statement": "A file whose tokens form a program in Python's grammar within Snek's limits is accepted, with Python's tree.", "quantifier": "all texts and all trees", "why_tests_cant": "Unboundedly many programs.", "anchors": ["snek-lex.c: snek_lex", "snek-gram.ll", "snek-parse.c: snek_parse"]}
{"id": "C77", "title": "From the text of a statement to what it does", "statement": "A file that is one statement is read, compiled and run to the state the evaluator gives.", "quantifier": "all texts of statements, all states, any number of steps", "why_tests_cant": "Composes the lexer, the parser, the compiler and the machine over unbounded programs.", "anchors": ["snek-lex.c: snek_lex", "snek-gram.ll", "snek-code.c: snek_exec"]}
{"id": "C78", "title": "A program does what its commands say, in order, up to the first error", "statement": "Reading a program command by command, compiling each and running it gives the state the evaluator gives: a function definition binds the name to a function with the right parameters, defaults and body, statements see the functions defined before them, memory is taken for each piece of code and each function, and after the first error nothing more is run.", "quantifier": "all lists of commands, all starting states, any number of steps", "why_tests_cant": "Programs of any length, with functions defined, redefined and calling one another; state carried from command to command.", "anchors": ["snek-gram.ll: start, command", "snek-code.c: snek_code_finish", "snek-func.c: snek_func_alloc", "snek-exec.c: snek_exec"]}
{"id": "C79", "title": "From the text of a file to what it does", "statement": "A file whose tokens form a program in Python's grammar within Snek's limits is divided into those tokens, accepted with Python's tree, compiled command by command and run to the state the evaluator gives.", "quantifier": "all texts, all programs, all starting states, any number of steps", "why_tests_cant": "Composes the lexer, the parser, the compiler and the machine over unboundedly many programs.", "anchors": ["snek-lex.c: snek_lex", "snek-gram.ll", "snek-parse.c: snek_parse", "snek-exec.c: snek_exec"]}
{"id": "C80", "title": "Calling a builtin function passes its arguments, and keeps the interpreter sound", "statement": "A call of a builtin function with a fixed number of parameters and another number of arguments, or any named ones, reports that and does nothing else. Otherwise the function gets the arguments in order and its result is the value of the call. Whatever the function and its arguments, at most one error is reported, the stack keeps its height, and every reference still leads to an object; so programs that call the builtin functions do what the evaluator says (C78).", "quantifier": "all builtin functions of the table, all arguments, all states, all programs", "why_tests_cant": "61 functions, any values and heap contents as arguments, memory exhausted at any allocation.", "anchors": ["snek-exec.c: snek_call_builtin", "snek-builtin.c", "snek-math.c", "snek-random.c", "snek-input.c"]}
{"id": "C81", "title": "print writes its arguments separated by spaces and ended as asked", "statement": "print writes the text of each positional argument with one space between any two, then the text of the value last given for the name end, or a newline when there is none or it is None; it returns None and changes nothing but the output. Other names are ignored.", "quantifier": "all argument lists, all values of any nesting the stack has room for, all heaps", "why_tests_cant": "Values nest without bound and share structure; any number of arguments and names.", "anchors": ["snek-builtin.c: snek_builtin_print", "snek-poly.c: snek_poly_format"]}
{"id": "C82", "title": "floor, ceil, trunc, int and round are exact; round follows Python", "statement": "math.floor, math.ceil, math.trunc and int of a finite number give exactly the integer Python gives. round gives a nearest integer, and of two equally near ones the even one.", "quantifier": "all finite numbers", "why_tests_cant": "2^32 numbers; the boundary cases are few.", "anchors": ["snek-math.c: snek_builtin_math_floor", "snek-math.c: snek_builtin_math_ceil", "snek-math.c: snek_builtin_math_trunc", "snek-builtin.c: snek_builtin_round", "snek-builtin.c: snek_builtin_int"]}
{"id": "C83", "title": "sqrt, abs and len", "statement": "math.sqrt is the root rounded once and NaN for negative numbers; abs and math.fabs are exact; abs and math.sqrt report values that are not numbers. len is the number of characters, elements or keys, and 0 for values that have no length.", "quantifier": "all numbers, all values, all heaps", "why_tests_cant": "All floats and all heap shapes.", "anchors": ["snek-math.c: snek_builtin_math_sqrt", "snek-builtin.c: snek_builtin_abs", "snek-builtin.c: snek_builtin_len"]}
{"id": "C84", "title": "input returns the next line", "statement": "input prints the value it is given, reads the characters up to the next newline or the end of the input, takes the newline and nothing after it, and returns a new string of those characters; nothing that existed looks different. If memory runs out an error is reported.", "quantifier": "all prompts, all inputs of any length, all heaps", "why_tests_cant": "Lines of any length, collected character by character with an allocation each that may move everything.", "anchors": ["snek-input.c: snek_builtin_input"]}
{"id": "C85", "title": "frexp, ldexp and modf are exact and ldexp undoes frexp", "statement": "math.frexp gives (x, e) with 1/2 <= |x| < 1 and the number equal to x times 2^e; math.ldexp multiplies by a power of two with one rounding, and applied to the result of math.frexp gives the number back; math.modf gives fraction and integer of the number's sign that add up to it exactly.", "quantifier": "all finite numbers, all exponents", "why_tests_cant": "All floats, including subnormal ones, and all exponents.", "anchors": ["snek-math.c: snek_builtin_math_frexp", "snek-math.c: snek_builtin_math_ldexp", "snek-math.c: snek_builtin_math_modf"]}
{"id": "C86", "title": "isclose is a symmetric, reflexive comparison with tolerances", "statement": "math.isclose(a, b) is true exactly when the distance of a and b is at most the greater of rel_tol times the greater magnitude and abs_tol; it does not depend on the order of a and b, and every number is close to itself.", "quantifier": "all pairs of numbers, all tolerances, all lists of named arguments", "why_tests_cant": "All pairs of floats; names given repeatedly and in any order.", "anchors": ["snek-math.c: snek_builtin_math_isclose"]}
{"id": "C87", "title": "Mathematical functions report arguments that are not numbers", "statement": "A mathematical function, round, pow, float or int given an argument it cannot take as a number reports a type or value error.", "quantifier": "all these functions, all values that are not numbers", "why_tests_cant": "Any value and any heap.", "anchors": ["snek-math.c", "snek-builtin.c: snek_builtin_float", "snek-builtin.c: snek_builtin_int"]}
{"id": "C88", "title": "math.fsum of a list is the sum of its elements rounded once", "statement": "math.fsum of a list or tuple of finite numbers whose sizes add up to at most half the largest number returns the true sum rounded once to the nearest number, or None after reporting that memory ran out; of a dictionary it sums the keys. Nothing that existed looks different. An argument that is not a list, tuple or dictionary is reported.", "quantifier": "all lists of any length the offset type allows, all heaps, all behaviours of the collector and all failing allocations", "why_tests_cant": "Lists of any length; the partial sums live in a list that is reallocated, moved and overwritten in place while it is read.", "anchors": ["snek-math.c: snek_builtin_math_fsum"]}
{"id": "C89", "title": "str returns the printed text of its argument as a new string", "statement": "str of a value returns a new string whose characters are what print writes for the value; for a string that is a copy. Nothing that existed looks different and nothing is written.", "quantifier": "all values of any nesting the stack has room for, all heaps, all behaviours of the collector", "why_tests_cant": "Values nest without bound; the text is built in the heap with an allocation per piece, each of which may move the value being printed.", "anchors": ["snek-string.c: snek_builtin_str", "snek-print.c: snek_poly_format", "snek-string.c: snek_buf_sprints"]}
{"id": "C90", "title": "At the prompt the value of an expression is printed and kept in _", "statement": "A command at the prompt that is an expression is evaluated; its value, unless it is None, is printed as repr does followed by a line end and is the value of the variable _ afterwards, no other variable being changed. Each expression statement of a line is printed. Commands with an assignment or del, compound commands and commands that fail print nothing.", "quantifier": "all sessions, all expressions and statements, all values of any nesting the stack has room for, all behaviours of the collector", "why_tests_cant": "Sessions, statements and values are unbounded; whether the value is still where it was when it is printed depends on when the pool is compacted.", "anchors": ["snek-gram.ll: command", "snek-frame.c: snek_id_store", "snek-print.c: snek_poly_format"]}
{"id": "C91", "title": "After a syntax error at the prompt exactly the erroneous command is skipped", "statement": "After a syntax error at the prompt, reading goes on with the first character after the erroneous command: the rest of its line, or for an error inside a block the rest of the block, is skipped, and nothing else; the line number counts what was skipped and the lexer is in its initial state.", "quantifier": "all texts typed, of any length and nesting, and all places of the error", "why_tests_cant": "The texts after the error are unbounded; the recovery drives the lexer, with its pushed back characters and indentation state, from any state the parser may have left it in.", "anchors": ["snek-parse.c: snek_parse", "snek-lex.c: snek_lex"]}
{"id": "C92", "title": "draw.line draws the straight line to the place given, inside the frame buffer", "statement": "draw.line(x, y) gives the current colour to exactly the places of the straight line from the current place to (x, y) moved inside the 64 by 32 frame, each the nearest to the exact line, changes no other place, accesses only the frame buffer and leaves the current place at the end of the line.", "quantifier": "all numbers given, all current places and colours, all contents of the frame buffer", "why_tests_cant": "There are more than four million pairs of ends and any contents of the frame; whether the error term kept in an int8_t overflows depends on the exact slope.", "anchors": ["snek-ssd1315.c: snek_builtin_draw_line", "snek-ssd1315.c: set_bit", "snek-ssd1315.c: snek_get_coord"]}
{"id": "C93", "title": "The display shows the frame buffer after any sequence of drawing calls", "statement": "After any sequence of calls of draw.erase, draw.color, draw.move and draw.line from power on, the frame buffer is the picture those calls describe, and once one of them drew or erased, the display shows each place of it as two by two dots, whatever it held before; it is switched on.", "quantifier": "all sequences of calls of any length with any numbers, all initial contents and positions of the display", "why_tests_cant": "The sequences are unbounded and the display's memory and pointers are changed only through the byte stream of the bus, incrementally per place.", "anchors": ["snek-ssd1315.c: paint_block", "snek-ssd1315.c: ssd_start_write", "snek-ssd1315.c: snek_builtin_draw_erase", "snek-ssd1315.c: snek_oled_init"]}
{"id": "C94", "title": "A program sent to eeprom.write is what is shown and what runs at the next start", "statement": "The text sent to eeprom.write up to ^D is what eeprom.show then prints and what the interpreter reads at the next start, followed by the end of input; characters sent after the ^D are left for the prompt. After eeprom.erase nothing is shown or read.", "quantifier": "all texts, all memory sizes and contents", "why_tests_cant": "Texts and sizes are unbounded; the text may meet the end of the memory at any character.", "anchors": ["chips/atmega/snek-atmega-eeprom.c: snek_builtin_eeprom_write", "chips/avr/snek-avr-eeprom.c: snek_builtin_eeprom_show", "snek-io.h: snek_raw_getc"]}
{"id": "C95", "title": "A stored program is read to its end whatever eeprom.show calls it makes", "statement": "At start the characters of the program in the EEPROM are read in order to its end, also when the program read so far calls eeprom.show; an error ends the reading.", "quantifier": "all stored texts, all interleavings of reading and eeprom.show", "why_tests_cant": "The interleavings are unbounded; the functions share a position in a static variable.", "anchors": ["chips/avr/snek-avr-eeprom.c: eeprom_getc", "chips/avr/snek-avr-eeprom.c: snek_eeprom_getchar", "chips/atmega/snek-atmega-eeprom.c: snek_eeprom_getchar"]}
{"id": "C96", "title": "The compiler writes its bytes only inside its buffer", "statement": "Whatever instructions the parser adds, marks, removes and patches, the compiler's buffer is only written inside the block allocated for it, also when no memory is left to extend it; as long as memory is granted the block holds exactly the bytes of the instructions, however often it had to be replaced.", "quantifier": "all sequences of calls of any length, all buffers, all patterns of refused allocations", "why_tests_cant": "Memory can run out at any of the unboundedly many extensions, and what is written depends on how many bytes are left at that moment.", "anchors": ["snek-code.c: compile_extend", "snek-code.c: snek_code_add_string", "snek.h: snek_code_set_push", "snek.h: snek_code_patch_branch"]}
{"id": "C97", "title": "What is sent over the serial line comes out once and in order", "statement": "For every interleaving of the program, arriving characters and interrupts, the characters the program has put are, in order and once each, first those on the line, then the one in the data register, then those in the transmit ring, which never exceeds its size; on the line they are interleaved only with ^Q and ^S in turn and with echoes of ^T.", "quantifier": "all programs, all sequences of events of any length, all ring sizes that are powers of two up to 128", "why_tests_cant": "The interrupt handlers share the rings and the data register with the program; losing or repeating a character takes a particular one of unboundedly many interleavings.", "anchors": ["chips/atmega/snek-atmega-serial.c: _snek_uart_tx_start", "chips/atmega/snek-atmega-serial.c: snek_uart_putch", "chips/atmega/snek-atmega-serial.c: ISR(UDRE_vect)"]}
{"id": "C98", "title": "A host that obeys ^S and ^Q loses no character", "statement": "Characters that arrive while the receive ring is not full are given to the program in order and once each; if the host stops within (ring size / 2 - 2) characters of being told ^S, the ring is never full when one arrives; ^C always gets through, leaving itself as the only character in the ring.", "quantifier": "all programs, all interleavings of any length, all hosts, all ring sizes that are powers of two up to 128", "why_tests_cant": "Whether ^S leaves in time depends on what is being sent when the ring becomes half full, which only a particular timing shows.", "anchors": ["chips/atmega/snek-atmega-serial.c: ISR(RX_vect)", "chips/atmega/snek-atmega-serial.c: _snek_uart_xoff", "chips/atmega/snek-atmega-serial.c: snek_uart_getch"]}
{"id": "C99", "title": "The serial line does not come to a stop", "statement": "Unless the host has asked for silence, after a while in which nothing happens but the hardware going on, everything the program has put is on the line, and if nothing is left to be read the last thing the host was told is ^Q.", "quantifier": "all programs, all sequences of events of any length", "why_tests_cant": "A lost wake-up needs one particular order of an interrupt and a call; all other orders work.", "anchors": ["chips/atmega/snek-atmega-serial.c: _snek_uart_tx_start", "chips/atmega/snek-atmega-serial.c: _snek_uart_xon", "chips/atmega/snek-atmega-serial.c: ISR(RX_vect)"]}
{"id": "C100", "title": "A program written to flash is the program read back, and the interpreter stays whole", "statement": "On the ATmega4809, a text sent to eeprom.write and ended by ^D is what eeprom.show prints and what is read at the next start, to its end; the pages of the interpreter itself are unchanged, and what follows the ^D is left for the prompt.", "quantifier": "all texts, all contents of the flash, all positions of the end of the interpreter", "why_tests_cant": "The page buffer is written at page boundaries and at the end; the cases where the text ends at, before or after a boundary cannot all be tried for all sizes.", "anchors": ["chips/atmega/snek-atmega-flash.c: snek_builtin_eeprom_write", "chips/atmega/snek-atmega-flash.c: flash_write_byte", "chips/atmega/snek-atmega-flash.c: snek_eeprom_getchar"]}
{"id": "C101", "title": "eeprom.erase removes the program in flash", "statement": "On the ATmega4809, after eeprom.erase eeprom.show prints no program and none is read at the next start, and the pages of the interpreter are unchanged.", "quantifier": "all stored texts, all contents of the flash, all states of the pins", "why_tests_cant": "Whether anything is erased depends on an unrelated register, which has the deciding value only when a program has made all pins of a port outputs.", "anchors": ["chips/atmega/snek-atmega-flash.c: snek_builtin_eeprom_erase"]}
{"id": "C102", "title": "An interrupt or an error stops the program", "statement": "When ^C sets snek_abort, snek_exec ends after at most one more instruction, whatever program is running and however deep its calls, and reports nothing; an error in an instruction ends it before another instruction is carried out.", "quantifier": "all programs, all moments between two rounds of the interpreter, all depths of calls, any number of further rounds", "why_tests_cant": "An interrupt can arrive at any moment of any program; a test can only try some moments, and an endless run cannot be told from a long one.", "anchors": ["snek-exec.c: snek_exec", "snek-error.c: snek_error_0", "snek-frame.c: snek_frame_pop", "ports/posix/snek-main.c: sigint"]}
{"id": "C103", "title": "Each pin shows what was asked of it", "statement": "On the ATmega328P, after any sequence of talkto, setpower, on, off, onfor, setleft, setright, read, pullup, pullnone and stopall, every pin that is an output shows what was asked of that pin last (low, high or pulsed by its power), and every pin that was read last is an input, pulled up if so chosen; operations on one pin change no other; a pin that does not exist is an error and changes nothing; setpower writes nothing to the console.", "quantifier": "all sequences of operations, all pins, all power values", "why_tests_cant": "The pins share registers of ports and timers; the interference between any two of the 21 pins after any history cannot be enumerated on hardware.", "anchors": ["chips/atmega/snek-328p.c: set_out", "chips/atmega/snek-328p.c: set_dir", "chips/atmega/snek-328p.c: has_pwm", "chips/atmega/snek-328p.c: snek_builtin_talkto", "chips/atmega/snek-328p.c: snek_builtin_setpower", "chips/atmega/snek-328p.c: snek_builtin_pullup", "chips/atmega/snek-328p.c: snek_builtin_read"]}
{"id": "C104", "title": "tone plays the frequency asked for", "statement": "tone(f) makes D5 change its level every half period of f, as nearly as the timer allows, for any f; tone and tonefor affect no other pin.", "quantifier": "all frequencies, all states of the pins and timers", "why_tests_cant": "The choice of the divisor depends on the frequency, and whether anything is heard on the history of the pin.", "anchors": ["chips/atmega/snek-328p.c: snek_builtin_tone", "chips/atmega/snek-328p.c: snek_builtin_tonefor"]}
{"id": "C105", "title": "stopall stops everything", "statement": "After stopall no pin is on, no output is pulsed, every output that was on is low, and no tone is played.", "quantifier": "all sequences of operations before it", "why_tests_cant": "What has to be stopped depends on the whole history.", "anchors": ["chips/atmega/snek-328p.c: snek_builtin_stopall"]}
{"id": "C106", "title": "The time is read whole", "statement": "snek_ticks, called at any moment and interrupted at any point, returns the lowest 32 bits of the number of counts of the timer at some moment between its call and its return, although the number is kept in a counter of 8 bits and a variable of 32 bits that an interrupt increments; and it returns within 28 instructions in which the interrupt is not served.", "quantifier": "all interleavings of counts, overflows, interrupts and instructions; all times", "why_tests_cant": "A wrong reading needs an overflow between two particular instructions, one in many thousands of calls.", "anchors": ["chips/atmega/snek-atmega-time.c: snek_ticks", "chips/atmega/snek-atmega-time.c: ISR(timer_vect)"]}
{"id": "C107", "title": "time.sleep waits as long as it is asked to", "statement": "time.sleep(x) returns, unless interrupted, when x seconds have passed and not before, for every number x that is not negative, and at once for a negative one.", "quantifier": "all numbers of seconds, all interleavings with the interrupt of the timer, all times at which it is called", "why_tests_cant": "The wait ends by a comparison of counters that wrap; long waits and waits across the wrap take hours.", "anchors": ["chips/atmega/snek-atmega-time.c: snek_sec_to_ticks", "chips/atmega/snek-atmega-time.c: snek_builtin_time_sleep"]}
{"id": "C108", "title": "time.monotonic is monotonic", "statement": "Of two calls of time.monotonic the later one never returns less than the earlier one, and each returns the seconds since the start to the precision of a number.", "quantifier": "all pairs of calls, all interleavings with the interrupt of the timer, all times", "why_tests_cant": "The counter wraps after 4.7 hours, and rounding could go back between any two of 2^32 values.", "anchors": ["chips/atmega/snek-atmega-time.c: snek_builtin_time_monotonic"]}
{"id": "C109", "title": "A program written to the flash of the SAMD21 is the program read back", "statement": "On the SAMD21, a text sent to eeprom.write and ended by ^D is what eeprom.show prints and what is read at the next start, to its end; the flash outside of the area for programs is unchanged, and what follows the ^D is left for the prompt.", "quantifier": "all texts, all contents of the flash, all sizes of pages, all places of the area, all states of the lock register", "why_tests_cant": "Bytes are written in pairs, pages from a buffer and rows of four pages are erased when they are begun; the cases where a text ends at, before or after each of these boundaries cannot all be tried for all sizes.", "anchors": ["chips/samd21/ao-flash-samd21.c: ao_flash_write_byte", "chips/samd21/ao-flash-samd21.c: ao_flash_write_flush", "chips/samd21/ao-flash-samd21.c: ao_flash_start_page", "chips/samd21/snek-eeprom.c: snek_builtin_eeprom_write", "chips/samd21/snek-eeprom.c: snek_eeprom_getchar"]}
{"id": "C110", "title": "eeprom.erase removes the program from the flash of the SAMD21", "statement": "On the SAMD21, after eeprom.erase no byte of the area for programs is left, eeprom.show prints no program and none is read at the next start, and the rest of the flash is unchanged.", "quantifier": "all contents of the flash, all sizes of pages, all places of the area, all states of the lock register", "why_tests_cant": "Which rows are erased depends on where the last byte lies; a row left out shows only when something was stored there.", "anchors": ["chips/samd21/ao-flash-samd21.c: ao_flash_erase_all", "chips/samd21/ao-flash-samd21.c: ao_flash_first_erased", "chips/samd21/ao-flash-samd21.c: _ao_flash_unlock"]}
{"id": "C111", "title": "neopixel shows the colours given", "statement": "neopixel(l) on the SAMD21, for a list l of colours (three numbers each), makes the i-th light show the i-th colour, each part being 255 times the number, limited to 0 and 1, rounded; for lights on one line (power and direction the same pin) and for APA102 lights on two. Lights beyond the list are not changed, a single colour given without a list sets one light, and an argument of another form is a type error after which nothing is sent.", "quantifier": "all lists of any length, all numbers, all contents of the memory, all pins, all thresholds of the lights between the two lengths of pulses", "why_tests_cant": "The effect is a train of pulses on a pin; what is sent beyond the list depends on what happens to lie in memory.", "anchors": ["chips/samd21/snek-gpio.c: snek_builtin_neopixel", "chips/samd21/snek-gpio.c: set_neopixel", "chips/samd21/snek-gpio.c: snek_poly_to_inten", "chips/samd21/ao-neopixel.c: ao_snek_neopixel_write", "chips/samd21/ao-apa102.c: ao_snek_apa102_write", "doc/snek.adoc: neopixel"]}
{"id": "C112", "title": "i2c.put and i2c.get reach the register asked for", "statement": "On the ATmega, i2c.put(addr, reg, val) sets register reg of the device at addr to val and changes nothing else in it or any other device; i2c.get(addr, reg) returns the content of that register and changes none; what was put is then got. Both leave the bus free. An argument that is not a number is a type error after which nothing is sent, and a device that does not answer is an error.", "quantifier": "all devices on the bus and all contents of their registers, all addresses, registers and values, all sequences of calls", "why_tests_cant": "It needs devices on the bus; a missing STOP or START shows only in the next transfer.", "anchors": ["snek-i2c.c: snek_builtin_i2c_put", "snek-i2c.c: snek_builtin_i2c_get", "chips/atmega/snek-atmega-i2c.c: snek_i2c_put", "chips/atmega/snek-atmega-i2c.c: snek_i2c_get", "chips/atmega/snek-atmega-i2c.c: snek_i2c_start"]}
