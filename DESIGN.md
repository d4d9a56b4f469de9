# A machine-checked model of snek

The subject is the snek interpreter core (the `snek-*.c` files, `snek.h` and
`snek-gram.ll` at the top of /repo).  The model is a set of computable Gallina
functions, one per C function, in `rocq/theories/`.  Nothing is run against the
C code: the link between the two is the citation on every definition.

## Layout of the development

| Kind of file | Contents |
|---|---|
| `*Model.v`   | Model definitions only, each with a comment citing file and lines |
| `*Spec.v`    | Small independent specifications (mathematical sequences, finite maps, Python's slice rule, ...) |
| `*Proofs.v`  | Lemmas |
| `*Props.v`   | The property theorems, each closed by `exact`, with `Print Assumptions` and a non-vacuity `Example` |

Undefined behaviour, reads outside an object and interpreter errors are
distinct outcomes of the model functions, never defaults.

## Plan per property

How each property is modelled and proved.  "Refuted" means the unchanged code
violates the English statement; then a `_refuted` theorem gives the witness and
a second theorem proves the statement under the exact side condition.

| Id | Model | Proof |
|---|---|---|
| C01 | `snek_poly_t` as a 32-bit integer; floats as IEEE binary32 (Flocq) | bit-level case analysis, range arithmetic |
| C02 | `snek_poly_cmp` over value trees | order laws by case analysis; strings by list induction |
| C03, C04 | `snek_list_cmp` | induction on the value tree; C04 refuted (a proper prefix compares greater) |
| C05 | index computation with explicit 32-bit and 16-bit wrap | arithmetic |
| C06, C07 | `snek_slice_canon/start/step` with C division and signed overflow as an outcome | arithmetic against Python's `range(*slice.indices(n))`; C07 refuted |
| C08-C11 | object store: locations to list objects with size, capacity and data array | refinement to mathematical sequences, induction over histories |
| C12-C15 | the sorted-array dictionary with its binary search | refinement to a finite map by induction over histories; C13, C15 refuted |
| C16-C18 | strings as byte lists, `snek_string_interpolate` as the scanning loop | list induction |
| C19 | the name chain with its id counter | invariant over histories |
| C20-C22 | frames as variable arrays, globals as a byte-exact array for deletion | refinement to scopes; C22 refuted; C21 partly refuted |
| C23 | the operand-size table and instruction walker | induction on instruction sequences; refuted for dict literals |
| C24 | number emission and loading | case analysis |
| C25-C29 | grammar actions as a compiler from syntax trees to the byte buffer, with push bits, branch patching and forward patching; the virtual machine | compiler correctness by induction on syntax and on evaluation derivations; C27 and C29 refuted in corner cases |
| C30 | the run loop | invariant |
| C31, C32 | loop opcodes over binary32 | exactness of small-integer arithmetic; refuted beyond it |
| C33-C37 | byte-level pool, block typing, mark, compaction window, move | graph isomorphism; C37 refuted for dict literals |
| C38 | byte-level string repetition and concatenation over the moving allocator | refuted by a computed heap; proved for the protected functions |
| C39-C45 | the lexer as a function on character lists with the push-back buffer | induction on input; C39, C43 refuted |
| C46 | the line-editor state machine | invariant over key histories |
| C47 | both generators as 32-bit state machines | invariant and arithmetic; range refuted at the edges |
| C48-C50 | float integer functions | Flocq exactness lemmas; gcd refuted |
| C51 | size arithmetic with wrap | refuted with witnesses, proved under a bound |
| C52-C54 | call dispatch, formals buffer, error state | case analysis and invariants |
| C55 | `snek_poly_format` over value trees | induction against an independent printer |
| C56-C58 | the operators of `snek_binary` over every kind of operand, printing of errors | case analysis over all kinds |
| C59 | the names of the hidden variables of a for loop | arithmetic; refuted beyond 256 nested loops |
| C60-C62 | the grammar as one function per nonterminal; Python's grammar as an inductive relation on token sequences | completeness by induction on derivations, soundness by induction on fuel, unambiguity from the two |
| C63 | fuel of the parser | a bound linear in the number of tokens, monotonicity |
| C64 | the look at the last instruction compiled | induction on derivation trees over the code emitted |
| C65, C66 | the same functions | refuted; what is accepted or refused beyond Python is characterised |
| C67 | parser, compiler and machine together | composition |
| C68-C70 | `math.fsum` with its growing list of partial sums over binary32 | exactness of two-sum as integers on a common grid, non-overlap as invariant, one rounding at the end; C70 refuted |
| C71-C74 | `atoff` over bytes with 16-bit exponent arithmetic | list induction, relative error of a chain of roundings; C74 refuted, C72 and C73 in part |
| C75-C77 | the lexer over a whole file, with the parser's stack of indentations | an inductive division of the text into tokens; simulation by an invariant on the lexer state; composition with C62 and C67 |
| C78-C79 | a program: its commands compiled and run one by one, with the functions defined so far | an evaluator of lists of commands; induction over them with C28's theorem as the step; composition with C62 and C75 |
| C80-C87 | the builtin functions over the store, the output, the input and the generator's state | one preservation lemma per function (C80), results stated on trees, texts and reals; C87 refuted, C82, C84 and C86 in part |
| C88, C89 | math.fsum and str over the store | the summation of C68 carried out in a list of the heap that moves and grows (invariant on its cells); the formatter of C18 with a string being built as its sink; both refuted in part |
| C90 | the rule for a command at the prompt: the printing flag, storing `_`, printing | through the relation of compiled code and evaluator (C78); printing as in C55 with the collector's moves; refuted when storing `_` compacts the pool and for several expressions on a line |
| C91 | the token-skipping loop of `snek_parse` over the lexer | invariants on what each token function takes from the text, induction on lines; refuted for comments, errors at a line's end and blocks not ended by a blank line |
| C92 | the frame buffer and the loop of `draw.line`, int8_t conversions explicit | the error term as a function of the step; every place is the nearest to the exact line, by induction on the steps left; refuted for all lines whose doubled error term passes 127 |
| C93 | the same with the bytes sent on the bus | refinement: the display controller (data sheet, page addressing) after the bytes sent shows the picture; invariant over all sequences of calls |
| C94 | reading from the host, writing, showing and reading at start | induction on the text sent, with the memory split at the address; refuted for texts that fill the memory |
| C95 | the position of reading and `eeprom.show` | induction on the interleaving; refuted for the file that shares the position |
| C96 | the block behind the compiler's buffer, every request for memory granted or refused | refinement of the list of bytes of `CodeModel` by any sequence of calls while memory is granted; refuted, for every buffer with too little room, when it is not |
| C97 | the ATmega serial line, its rings, flow control and interrupts as events in any order | invariant of every reachable state: the line, the register and the ring are the characters put, woven with the flow characters |
| C98 | the same, with a host that obeys ^S after a delay | in order while there is room; invariant that bounds the receive ring; refuted for a host that has sent ^S |
| C99 | the same, the hardware left alone | a measure that goes down with each interrupt; refuted, from every quiet state, by ^T |
| C100 | the flash store: page buffer, controller, reading at start | invariant of the writing loop (what is written, what waits in the buffer, what is old); refuted for long texts and without the fuse |
| C101 | the same, erasing | from the same invariant; refuted by the state of the pins |
| C102 | the interpreter loop with snek_abort set | every instruction keeps the flag (C54's lemma), only returns go on: induction on the depth of calls; refuted for a full stack |
| C103 | ports, timers and variables of the pins | refinement to a board of independent pins (invariant over sequences of operations); power by error bounds of rounding; refuted for A5, high pull-ups, read then talkto, NaN |
| C104 | the same, tone | the prescaler loop by cases, the half period by rounding; refuted for high and negative frequencies, after setpower, and for tonefor |
| C105 | the same, stopall | from the refinement; refuted for tones |
| C106 | timer, interrupt and the instructions of snek_ticks, in any interleaving | invariant over the places in the code: what is in the variables, by the number of interrupts served; the result is the time at the instant the counter was read |
| C107 | the same with the loop of time.sleep | the same invariant with the moment of the first reading; rounding by error bounds; refuted for rounding down, long waits, negative and huge numbers |
| C108 | the same with time.monotonic | C106 and monotonicity of rounding; refuted when the counter wraps |
| C109 | the flash store of the SAMD21: pairs of bytes, page buffer, rows, lock register | invariant of the writing loop (pages done, rows cleared, buffer) for any size of pages; refuted for long texts, locked regions and programs that call eeprom.show |
| C110 | the same, erasing | the last byte that is not erased, induction on the rows; refuted for locked regions |
| C111 | neopixel on the SAMD21, down to toggles of the pins and the waits between them | lights as readers of pulses or clocked bits, written from the data sheets; induction on the bits, the pixels and the list; rounding from C103; refuted for APA102, single colours and NaN |
| C112 | i2c.put and i2c.get with the two-wire controller and devices with registers | the states of the controller through each transfer; refuted for devices that do not answer, odd addresses and NaN |

## What is modelled

| Part of the code | Files of the model |
|---|---|
| Value words, numbers, conversions, comparison (`snek.h`, `snek-poly.c`) | `Base`, `FloatModel`, `PolyModel`, `ValueModel` |
| Object store, allocation, pushing and popping, errors (`snek.h`, `snek-memory.c`, `snek-error.c`) | `MachModel` |
| Lists, tuples, dictionaries (`snek-list.c`), slices (`snek.h`, `snek-list.c`, `snek-string.c`) | `ListModel`, `SliceModel` |
| Strings, formatting, printing, `chr`, `ord`, `len` (`snek-string.c`, `snek-print.c`, `snek-builtin.c`) | `StrModel` |
| Allocator and collector (`snek-memory.c`, and the mark and move functions of every type), byte for byte | `GcModel` |
| Names (`snek-name.c`) | `NameModel` |
| Variables, frames, functions, calls (`snek-frame.c`, `snek-func.c`) | `FrameModel` |
| Lexer (`snek-lex.c`) | `LexModel` |
| Grammar and its actions (`snek-gram.ll`) | `GramModel` (tokens to trees), `CompModel` (trees to code) |
| Commands of a file (`snek-gram.ll` start and command, `snek-code.c` snek_code_finish, `snek-func.c` snek_func_alloc) | `ProgModel` (memory as in `MachModel`; compile buffer never full, for which see `BufModel`; the printing of values at the prompt is in `PromptModel`) |
| Code buffer and walking (`snek-code.c`) | `CodeModel`, `CompModel` |
| Operators and virtual machine (`snek-exec.c`) | `BinModel`, `ExecModel` |
| Integer and power functions, generators (`snek-math.c`, `snek-pow.c`, `snek-random.c`, `snek-random-small.c`) | `MathModel` |
| Builtin functions (`snek-builtin.c`, `snek-input.c`, `snek-math.c`, `snek-random.c`, `snek-print.c`) and the tables that name them | `BuiltModel`; the output, the input and the generator's state are `m_io` of `MachModel`; sin, cos, exp and the like and strtof are arbitrary functions |
| `math.fsum` (`snek-math.c`) | `SumModel` |
| Commands at the prompt (`snek-gram.ll` 17-30) | `PromptModel` |
| Recovery after a syntax error (`snek-parse.c` 220-291) | `RecModel`: the loop and the lexer, not the freeing of the parser's values |
| Reading of numbers on AVR (`snek-atof.c`) | `AtofModel` |
| Line editor (`snek-io.c`) | `IoModel` |
| The serial line with its interrupts (`chips/atmega/snek-atmega-serial.c`) | `UartModel` |
| The compiler's buffer as a block that is extended (`snek-code.c`) | `BufModel` |
| Drawing on the OLED display (`snek-ssd1315.c`) | `DrawModel`; the display itself is part of the specification, `DrawSpec` |
| Pins and tones of the ATmega328P (`chips/atmega/snek-328p.c`) | `PinModel` |
| Time on the ATmega328P (`chips/atmega/snek-atmega-time.c`) | `TimeModel` |
| Programs in the flash of the SAMD21 (`chips/samd21/snek-eeprom.c`, `ao-flash-samd21.c`) | `NvmModel` |
| Coloured lights on the SAMD21 (`chips/samd21/snek-gpio.c` 694-773, `ao-neopixel.c`, `ao-apa102.c`) | `LedModel` |
| Devices on the two-wire bus (`snek-i2c.c`, `chips/atmega/snek-atmega-i2c.c`) | `I2cModel` |
| Programs in flash (`chips/atmega/snek-atmega-flash.c`) | `FlashModel` |
| Programs in the EEPROM (`chips/atmega/snek-atmega-eeprom.c`, `chips/avr/snek-avr-eeprom.c`, `snek-io.h`) | `RomModel` |

## What is not modelled, and where the model simplifies

* Two levels of memory.  The store of `MachModel` has objects with locations, sizes and
  contents, and an oracle that says at each allocation whether objects move; the
  byte-level heap is `GcModel`, and C33 to C37 relate a collection to what the
  roots lead to.  The two levels are not composed in one theorem.
* The parser generator (lola) is not in the repository.  The grammar is read as
  LL(1); the sizes of the parser's stacks (128 entries, `PARSE_STACK_SIZE`) and of
  the value stack used by its actions are not modelled.
* Compiling with too little memory for the code buffer is not modelled in
  `CompModel` (after a failed extension the code goes on writing,
  snek-code.c 97-110); in `GcModel` the buffer is a root like any other.
* The machine's value stack overflowing (127 entries) is the outcome `Full`, the
  use of an undefined builtin the outcome `Undefined`; the theorems on execution
  say nothing about them.  `snek_line` is not modelled, and interrupts only between
  instructions of the interpreter (C102).
* If the evaluator of `EvalSpec` does not end, nothing is claimed about the
  machine.
* Builtins are parameters of the execution theorems, assumed to leave frames and
  code alone (`TameSpec`); C80 proves that of the functions of `BuiltModel`.
* `powf`, the rest of libm, `sprintf`, `strtof`/`strfromf` and the conversion of
  an out-of-range float to a small integer are parameters, closed over by
  sections.  Numbers are formatted in fewer than 32 characters.
* Whether C `char` is signed is a parameter; shifts are gcc's;
  `memcpy` of zero bytes from a null pointer counts as nothing; the order of
  evaluation of operands is the one gcc takes.  `double` intermediates of
  a division are exact by the argument beside `MathModel`.
* Strings in code are object numbers as operands, frame links are kept apart
  from the variables.
* In `GcModel`: the caches of block addresses, the debugging checks, and the depth
  of the C stack in marking are left out.  Well-formed heaps exclude
  references beyond the offset type, and the strings of code are those that the
  collector's own walk sees (see C37).
* Other device drivers (pins of other boards, motors, sensors), boards, `snekde` and the ports' `main` are not modelled.  Of those
  modelled, the registers of the processor and waiting on them are left out.
* In `LedModel` the argument is a tree of values, each pin is its own line, and time
  is the number of `ao_arch_nop` between changes of a pin; the pause that makes the
  lights show what they got is left out.
* In `I2cModel` the controller and the devices are outside of the code: one master,
  no stretching of the clock, a STOP is done at once, and a byte read from nobody is 255.
* In `UartModel` the interrupt handlers and the parts of the program between
  `cli` and `sei` are single events; the data register is empty or full, and the
  shift register behind it is not apart.  `snek_uart_wait_queued` and the baud
  rate (snek-atmega-serial.c 226-321) are left out.

## Findings

Statements that are false of the code as it is.  Each has a theorem ending in
`_refuted`, most of them for every input of a shape and not only a witness.

* C02 (`C02_math_nan_refuted`): Holds for every number the interpreter computes; false for the builtin constant math.nan, whose word is not the canonical NaN.
* C04 (`C04_prefix_refuted`): False in the proper-prefix case; proved everywhere else.
* C05 (`C05_index_refuted`): Holds for every index of the integer type; a float index outside that type, or the smallest integer, is undefined behaviour.
* C07 (`C07_slice_overflow_refuted`): False: operands near the limit overflow. Proved for operands away from the limit.
* C13 (`C13_refuted`): False when one tuple key is a proper prefix of another; proved whenever no two tuples compared are in that relation, in particular when all tuples have one length.
* C39 (`C39_refuted`, `C39_end_refuted`): False for 'is'/'not' before a word that starts with not/in, and for a name directly before the end of the file; proved for all other words shorter than 255 characters.
* C41 (`C41_refuted`): Every numeral up to 255 characters is one token; false that nothing else is accepted (lone dots, exponent without digits).
* C42 (`C42_refuted`): Balance and nesting proved for all texts; that a deeper line opens a block is false for 256 or more spaces.
* C43 (`C43_refuted`): False for a comment without an end of line; proved when every comment has one.
* C44 (`C44_hex_refuted`): Literals of up to 255 characters, escapes below 128 (larger ones are refused).
* C46 (`C46_byte_refuted`, `C46_interrupt_refuted`): Editing proved for all key sequences; false that an interrupted line delivers nothing (what was typed is delivered by later calls), and byte 255 reads as end of file where char is signed.
* C47 (`C47_randrange_refuted`, `C47_small_randrange_refuted`, `C47_random_refuted`, `C47_small_random_refuted`): randrange(n) proved in [0,n) for n up to 2^24 and false above; random() proved in [0,1] and can be 1; the small generator's random() exceeds 1 and its randrange(0) divides by zero.
* C48 (`C48_gcd_refuted`, `C48_gcd_zero_refuted`): gcd proved for integers with a common factor, wrong for all coprime pairs above one and for zero; powers (snek-pow.c) and factorials exact whenever representable.
* C49 (`C49_shift_refuted`, `C49_range_refuted`, `C49_not_refuted`): & | ^ and in-range shifts proved; ~ is wrong for every integer of zero or more; shift counts outside 0..31 and operands outside 32 bits are undefined behaviour.
* C50 (`C50_mod_refuted`): % is wrong for some operands of opposite sign near 2^24; everything else proved exact.
* C15 (`C15_refuted`): False for d[k] += v with a missing key: the key is inserted and an error raised (C15_refuted, for every such state). Proved for tuples, non-containers, list indices out of range and mutable keys. Deleting a missing key changes nothing but raises no error.
* C16 (`C16_ord_refuted`): Concatenation, indexing and ord(chr(c)) in the range of char proved for every collector behaviour; ord(chr(c)) is c - 256 above 127 where char is signed; repetition proved when its allocation moves nothing.
* C17 (`C17_numbers_refuted`): Proved for lists, tuples, dictionaries and strings; x in y for two numbers is x instead of an error.
* C18 (`C18_empty_refuted`, `C18_range_refuted`): Proved for non-empty formats with enough memory; the empty format gives None; %d of a number outside int is undefined; quoted strings and mismatched arguments need allocations that do not move (see C38).
* C38 (`C38_times_refuted`, `C38_del_refuted`, `C38_format_refuted`, `C38_report_refuted`): Proved (for every oracle of moves) for list +, +=, *, string +, dictionary store; false for string *, del of a missing key, quoted strings in a format, the report of a format mismatch.
* C51 (`C51_list_times_refuted`, `C51_list_plus_refuted`, `C51_string_times_refuted`): Safe where the sizes fit the offset type (the hypotheses roomy, fits, roomy_str of the listed theorems); otherwise the sizes wrap and the writes leave the object.
* C57 (`C57_negative_refuted`): Proved for every operator and every pair of kinds; repetition with a negative count gives None without an error, and a count outside the offset range is undefined.
* C21 (`C21_too_few_refuted`, `C21_required_refuted`): Binding, surplus, unknown and repeated arguments and defaults proved; false that a missing required argument is an error: the check reads past the frame (undefined) or the body runs with the formal unbound.
* C22 (`C22_delete_refuted`): Proved for the newest global; false for every other one: the newest is lost.
* C52 (`C52_none_refuted`): Proved for numbers, strings, lists, tuples and dictionaries; calling None indexes the builtin table far out of bounds.
* C53 (`C53_too_many_refuted`, `C53_twice_refuted`): Order of defaults proved; more than ten formals overrun an array and repeated names are accepted.
* C23 (`C23_dict_refuted`, `C23_line_refuted`): Walking visits exactly the emitted instructions for every command without a dictionary display, and for no command with one: dict operands are walked with the wrong length.
* C27 (`C27_default_refuted`, `C27_default_value_refuted`, `C27_other_refuted`): Proved for chains of == != < > <= >= starting after the first byte of code; false for chains starting a default argument's code and for chains with is, in and not.
* C28 (`C28_dict_refuted`): Proved for all commands whose code can be walked (see C23) and short of value-stack overflow; false for a break after a dictionary display of three to five entries on one line.
* C29 (`C29_trailing_return_refuted`): Proved for bodies that do not end with a compound statement whose last statement is a return; in those the value of the last expression is returned.
* C31 (`C31_stuck_refuted`, `C31_first_refuted`): Proved for integers up to 2^24 when the body leaves the loop variable and the two hidden names alone; above 2^24 the loop never ends or starts at the wrong value.
* C32 (`C32_none_refuted`): Proved for strings and for lists, tuples and dictionaries without None, when the body leaves the container alone; the loop stops at the first None.
* C33 (`C33_emitting_refuted`, `C33_buffer_refuted`): Proved for every well-formed heap, any window size, any number of collections and allocations: the same objects, every reference still to the same object, everything the roots lead to looks the same to any depth. Code counts as it is read by the collector (see C37). False while a string instruction is being emitted: the buffer is extended between opcode and operand and a collection there corrupts a neighbouring object.
* C35 (`C35_wrap_refuted`): Proved for all sizes that do not wrap when rounded; the three largest sizes of the offset type succeed and reserve nothing.
* C37 (`C37_dict_refuted`, `C37_lost_refuted`): Proved for code without dictionary displays; the string after a display of three to five entries is not seen by the collector, and its storage is given away.
* C59 (`C59_deep_refuted`): Proved up to 256 nested loops; the depth is a byte and wraps.
* C65 (`C65_positional_after_named_refuted`): False: the theorems describe what snek accepts and Python does not.
* C66 (`C66_power_refuted`): False: a unary operator after ** is refused, and so are a semicolon at the end of a line, def first in a block and range other than after in. Everything else that is Python's is accepted (C60_expression_tree, C62_program_tree).
* C70 (`C70_overflow_refuted`, `C70_infinity_refuted`): False: an overflow on the way gives an infinity or not-a-number whatever follows, and an infinity with a finite number gives not-a-number.
* C72 (`C72_integer_refuted`, `C72_fraction_refuted`): True of integers below 429496728 and of integers up to 2^24 however written; false of some larger integers and of fractions such as 0.9.
* C73 (`C73_refuted`): Proved up to 768 characters, false beyond: the exponent overflows.
* C74 (`C74_sign_refuted`, `C74_other_refuted`, `C74_letters_refuted`): False: such texts read as 0, not-a-number or an infinity.
* C82 (`C82_round_half_even_refuted`): All but the last part hold; round takes halves away from zero, so it differs from Python at every half whose even neighbour is nearer to zero.
* C84 (`C84_input_memory_refuted`): Proved when memory suffices (NUL characters are left out); when it does not, the behaviour is undefined.
* C86 (`C86_infinity_refuted`): Proved for finite numbers whose distance does not overflow; an infinity is not close to itself, and the default rel_tol is 1e-6, not 1e-9.
* C87 (`C87_type_refuted`, `C87_type2_refuted`, `C87_float_refuted`): False: none of these functions reports anything (abs and math.sqrt do, C83_type).
* C88 (`C88_argument_refuted`): The sum is proved for every list, collector and failure of memory; false that other arguments are reported: None gives None and anything else is undefined.
* C89 (`C89_moved_refuted`): Proved when memory suffices and either nothing moves or no string is written in quotes; otherwise the old place of the string may be read (C89_moved_refuted).
* C90 (`C90_stale_refuted`, `C90_two_refuted`): Proved unless room for a new _ compacts the pool, when the value is printed through its old address; of several expressions on a line only the last is printed.
* C91 (`C91_comment_refuted`, `C91_end_refuted`, `C91_block_refuted`): Proved for lines without comments and blocks ended by a blank line; false with a comment (the rest of it is read as a command), for an error at the end of a line (the next line is lost) and for a block ended by another command (it is lost).
* C92 (`C92_wide_refuted`, `C92_frame_refuted`, `C92_clamp_refuted`, `C92_error_refuted`): Proved exactly for the lines whose doubled error term fits int8_t (all at most 42 wide, level or steep ones); every other line misses its end and some write outside the frame buffer. Numbers outside snek_soffset_t are undefined, and a call with a wrong type draws all the same.
* C93 (`C93_erase_refuted`): Proved for all sequences whose lines are narrow as in C92; draw.erase alone does not switch the display on.
* C94 (`C94_long_refuted`): Proved for texts shorter than the memory; of a longer text the rest is taken as commands at the prompt.
* C95 (`C95_show_refuted`): Proved for snek-atmega-eeprom.c; in snek-avr-eeprom.c eeprom.show moves the position of reading to after the end mark, so the rest of the program is lost or old bytes are read.
* C96 (`C96_string_refuted`, `C96_branch_refuted`, `C96_push_refuted`): Proved while memory is granted, and for adding instructions always. Once memory has run out, a string constant, the target of a branch and the push bit are written outside the block whenever the instruction they belong to did not fit, since nothing tells the caller.
* C98 (`C98_silence_refuted`): Proved for hosts that have not themselves sent ^S. While the host has asked for silence, ^S is not sent either: the host is never told to stop, and what comes after the ring is full is lost.
* C99 (`C99_echo_refuted`, `C99_wait_refuted`): Proved for input without ^T. The handler echoes ^T without enabling the interrupt that continues the output: a character put while the echo goes out stays in the ring as long as the program waits for input, and if the last character of a full ring is read at that moment ^Q is never sent, so that the host and the program wait for each other.
* C100 (`C100_long_refuted`, `C100_fuse_refuted`, `C100_big_refuted`): Proved for texts that leave two bytes free. The rest of a longer text goes to the prompt as if typed there; without the fuse that says where the interpreter ends eeprom.write and eeprom.show use a null pointer.
* C101 (`C101_pins_refuted`): Proved unless all pins of port A are outputs: eeprom.erase looks at address 0, a register of that port, and not at the start of the program, and does nothing when it reads 255.
* C102 (`C102_overflow_refuted`): Proved for interrupts, and for every error but one: a value for which the stack has no room is reported after the check of snek_abort, so that the next instruction is carried out on a stack that lacks the value; a call then calls another function than the one written.
* C103 (`C103_a5_refuted`, `C103_pull_refuted`, `C103_pull_a1_refuted`, `C103_read_refuted`, `C103_setpower_refuted`): Proved for all pins but A5 and pull-up resistors up to A0. After talkto(A5), on() uses table entries that do not exist, since has_pwm looks at the pin modulo 16; 1 << p has 16 bits, so pullup and pullnone are undefined from A2 on and A1 takes the pins above along; a pin that was read is driven high by talkto though it is off; setpower prints an address left from debugging, and is undefined for NaN.
* C104 (`C104_high_refuted`, `C104_negative_refuted`, `C104_power_refuted`, `C104_d6_refuted`, `C104_tonefor_refuted`): Proved up to 8 MHz when D5 had no power greater than the period. Above, 31250 Hz is played; a negative frequency is undefined; after setpower on D5 there may be no tone at all; D6 loses its pulses while no other pin is changed; tonefor turns the power pin on and leaves it on.
* C105 (`C105_tone_refuted`): Proved without tones. A tone goes on after stopall: the code for it is under #ifdef SNEK_builtin_tone, which is never defined, instead of SNEK_BUILTIN_tone.
* C107 (`C107_early_refuted`, `C107_long_refuted`, `C107_undefined_refuted`): Proved up to 8589 seconds, within half a tick and rounding: the wait can be up to two microseconds and a part in seven million short. From 8590 to 17179 seconds time.sleep returns when it has read the time twice, since the comparison is of 32-bit signed numbers; negative numbers, NaN, infinity and more than 17180 seconds convert a float to uint32_t out of range, which is undefined.
* C108 (`C108_wraps_refuted`): Proved for the first 2^32 counts of the timer, 4.7 hours; then it starts again from zero.
* C109 (`C109_long_refuted`, `C109_locked_refuted`, `C109_show_refuted`): Proved for texts that fit with their end in an area that is not locked. A longer text is written beyond the area, over what is there. A locked area is not unlocked, since ao_flash_is_locked takes the bit that means unlocked to mean locked: nothing is written and nothing reported. A program that calls eeprom.show while it is read at the start is not read any further, since both use flash_read_offset.
* C110 (`C110_locked_refuted`): Proved for an area that is not locked; a locked one keeps its program.
* C111 (`C111_apa102_refuted`, `C111_direct_refuted`, `C111_direct_error_refuted`, `C111_nan_refuted`): Proved for lists of colours without NaN on one line. On two lines every light shows the first colour, since ao_snek_apa102_write never advances the pointer, and the light after the last turns white. A single colour is sent to three lights, since the size of the list is used: the other two show what lies in memory behind the pixel; and it is sent also after a type error. NaN is converted to a byte, which is undefined.
* C112 (`C112_absent_refuted`, `C112_odd_refuted`, `C112_nan_refuted`): Proved for even addresses (the address is the one sent, with the bit for reading clear) at which there is a device. Without one i2c.put does nothing and i2c.get returns 255, and neither reports an error, since the status of the controller is never looked at. With an odd address i2c.put sends a request to read, and no register is set. NaN and infinity are converted to an integer, which is undefined.

## Trusted base

* Coq 8.16.1's kernel, and `coqchk`.
* The reading of the C code recorded in the citations.
* The axioms `Print Assumptions` lists, all of the standard library (they come
  with the real numbers that Flocq's binary32 is specified by):

* **Closed under the global context** (no axiom): C01_reference_round_trip, C01_word_reading, C01_builtin_round_trip, C02_nan_operators, C05_list_index, C05_string_index, C06_slice_is_python, C06_slice_defined, C06_zero_stride, C07_no_overflow_partial, C07_slice_overflow_refuted, C08_plus, C09_append, C10_times, C11_history, C14_mutable_key, C14_tuple_store, C14_tuple_del, C39_words_partial, C39_two_words_partial, C39_refuted, C39_end_refuted, C40_longest, C41_numbers, C41_only_partial, C41_refuted, C42_nesting, C42_balance, C42_closes_to_open_block, C42_first_token_partial, C42_refuted, C43_token_partial, C43_tokens_partial, C43_same_token, C43_refuted, C44_denotes, C44_writable, C44_hex_refuted, C45_pushback, C56_line, C46_lines_partial, C46_bounded, C46_byte_refuted, C46_interrupt_partial, C46_interrupt_refuted, C50_range, C15_del_partial, C51_list_times_refuted, C51_list_plus_refuted, C51_string_times_refuted, C55_print, C19_interned, C20_scopes, C21_defaults, C53_formals_partial, C53_defaults_last, C53_too_many_refuted, C53_twice_refuted, C23_dict_refuted, C23_line_refuted, C31_range_list, C33_unobservable_partial, C33_collect_partial, C33_emitting_refuted, C33_buffer_refuted, C34_packed, C34_listed, C34_incremental, C34_fails, C35_fresh_partial, C35_wrap_refuted, C36_ends, C37_strings_partial, C37_dict_refuted, C37_lost_refuted, C59_hidden, C59_names, C59_deep_refuted, C60_expression_tree, C60_same_tree, C61_accepted_partial, C61_one_reading, C61_lexer_tokens, C62_program_tree, C62_accepted_partial, C62_one_reading, C62_same_program, C63_expression_ends, C63_program_ends, C65_plus_target, C65_named_operator, C65_imports, C65_global, C65_positional_after_named_refuted, C66_power_refuted, C66_never_accepted_partial, C75_tokens, C75_only, C76_text_tree, C80_arguments, C84_input_memory_refuted, C91_line_partial, C91_block_partial, C91_comment_refuted, C91_end_refuted, C91_block_refuted, C92_line_partial, C92_narrow, C92_path, C92_wide_refuted, C92_frame_refuted, C92_clamp_refuted, C92_error_refuted, C93_display_partial, C93_erase_refuted, C94_store_partial, C94_long_refuted, C94_erase, C95_read_partial, C95_show_refuted, C95_error, C97_output, C97_silence, C98_input_partial, C98_obeying, C98_interrupt, C98_silence_refuted, C99_progress_partial, C99_echo_refuted, C99_wait_refuted, C100_store_partial, C100_long_refuted, C100_fuse_refuted, C100_big_refuted, C101_erase_partial, C101_pins_refuted, C103_pull_refuted, C103_pull_a1_refuted, C106_ticks, C106_returns, C107_prompt, C107_stop, C109_store_partial, C109_long_refuted, C109_locked_refuted, C109_show_refuted, C110_erase_partial, C110_locked_refuted.

* `ClassicalDedekindReals.sig_forall_dec`, `ClassicalDedekindReals.sig_not_dec`, `Classical_Prop.classic`, `FunctionalExtensionality.functional_extensionality_dep`: C01_number_round_trip, C02_scalar_operators, C02_scalar_trichotomy, C02_scalar_transitive, C02_binary, C02_math_nan_refuted, C03_equality_structural, C04_lexicographic_partial, C04_every_prefix_wrong, C05_binary, C05_index_refuted, C09_in_place, C09_tuple, C10_binary, C10_negative, C12_history, C12_literal, C13_tuples_partial, C13_same_length_partial, C13_refuted, C47_seed, C47_randrange_partial, C47_small_randrange_partial, C47_randrange_upto, C47_randrange_zero, C47_randrange_refuted, C47_small_randrange_refuted, C47_random_partial, C47_random_refuted, C47_small_random_refuted, C48_power, C48_factorial, C48_gcd_partial, C48_gcd_refuted, C48_gcd_zero_refuted, C49_and, C49_or, C49_xor, C49_shift_left_partial, C49_shift_right_partial, C49_shift_refuted, C49_range_refuted, C49_fraction, C49_not_partial, C49_not_refuted, C50_sum, C50_difference, C50_product, C50_numbers, C50_floordiv, C50_mod_partial, C50_mod_refuted, C15_readonly_partial, C15_list_partial, C15_mutable_key_partial, C15_refuted, C16_cat, C16_index, C16_ord_chr, C16_ord_refuted, C16_times_partial, C17_container, C17_substring, C17_other, C17_numbers_refuted, C18_format_partial, C18_empty_refuted, C18_range_refuted, C38_times_refuted, C38_del_refuted, C38_format_refuted, C38_report_refuted, C57_type_error_partial, C57_negative_refuted, C58_identity, C21_binding_partial, C21_too_few_refuted, C21_required_refuted, C22_delete_newest_partial, C22_undefined, C22_delete_refuted, C52_not_callable, C52_none_refuted, C23_walk_partial, C24_emitted, C24_literal, C25_expression_partial, C26_short_circuit, C27_chain_partial, C27_default_refuted, C27_default_value_refuted, C27_other_refuted, C28_command_partial, C28_dict_refuted, C29_none_partial, C29_trailing_return_refuted, C30_restored, C30_balanced, C31_count_partial, C31_stuck_refuted, C31_first_refuted, C32_list_partial, C32_all_elements_partial, C32_none_refuted, C32_string, C54_one_error, C54_session, C64_assignable, C64_argument_name, C67_source_partial, C68_rounded_once, C68_rounded_once_dict, C68_total, C68_order, C69_defined, C69_result, C70_overflow_refuted, C70_infinity_refuted, C71_accuracy, C71_zero, C72_nearest, C72_exact, C72_integer_refuted, C72_fraction_refuted, C73_defined_partial, C73_refuted, C74_sign_refuted, C74_other_refuted, C74_letters_refuted, C77_text_runs_partial, C78_program_partial, C79_text_program_partial, C80_tame, C80_program_partial, C80_call, C81_print, C82_floor, C82_ceil, C82_trunc, C82_round, C82_round_half_even_refuted, C83_sqrt, C83_abs, C83_type, C83_len, C84_input, C85_frexp, C85_ldexp, C85_round_trip, C85_modf, C86_isclose, C86_defaults, C86_symmetric, C86_reflexive, C86_infinity_refuted, C87_type_refuted, C87_type2_refuted, C87_float_refuted, C88_fsum, C88_sum, C88_argument_refuted, C89_str_partial, C89_copy, C89_moved_refuted, C90_expression_partial, C90_silent, C90_error, C90_stale_refuted, C90_two_refuted, C96_buffer_partial, C96_append, C96_string_refuted, C96_branch_refuted, C96_push_refuted, C102_stops, C102_instruction, C102_error_partial, C102_overflow_refuted, C103_pins_partial, C103_power_partial, C103_invalid, C103_a5_refuted, C103_read_refuted, C103_setpower_refuted, C104_tone_partial, C104_high_refuted, C104_negative_refuted, C104_power_refuted, C104_off, C104_others, C104_d6_refuted, C104_tonefor_refuted, C105_stopall_partial, C105_tone_refuted, C107_sleep_partial, C107_early_refuted, C107_long_refuted, C107_undefined_refuted, C108_monotonic_partial, C108_close_partial, C108_wraps_refuted, C111_neopixel_partial, C111_error_partial, C111_apa102_refuted, C111_direct_refuted, C111_direct_error_refuted, C111_nan_refuted, C112_put_partial, C112_get_partial, C112_round_trip_partial, C112_type, C112_type_get, C112_absent_refuted, C112_odd_refuted, C112_nan_refuted.

* `ClassicalDedekindReals.sig_forall_dec`, `FunctionalExtensionality.functional_extensionality_dep`: C04_prefix_refuted.
