# Formal model of GNU Mes in Rocq (Coq 8.16.1)

## 1. What is modelled

The target is the gcc build of GNU Mes for x86_64 linux with the Mes C library
(`sizeof (long) = 8`, `sizeof (struct scm) = 24`, `M2_CELL_SIZE = 1`, signed `char`).

* `src/gc.c`, `src/core.c`, `src/lib.c`, `src/vector.c`, `src/struct.c`,
  `src/string.c`, `src/hash.c`, `src/symbol.c`, `src/module.c`, `src/math.c`,
  `src/reader.c`, `src/display.c`, `src/posix.c` (character ports),
  `src/eval-apply.c`, `src/stack.c`: the interpreter.
* `lib/mes`, `lib/string`, `lib/stdlib`, `lib/posix`, `lib/stdio`, `lib/ctype`,
  `lib/linux/malloc.c`: the C library functions the interpreter rests on.
* a few arithmetic kernels of `module/mescc`.

### Conventions

* Machine words are elements of `Z`; the C type's range and wrap-around are written
  explicitly (`wrap_u64`, `in_long`, ...).  Signed overflow, division of `LONG_MIN`,
  out-of-range shifts, null or out-of-arena accesses, reads of
  unallocated cells are *distinct outcomes* (`UB`), never assumed away.
* `assert_msg (0, ...)` / `abort` is the outcome `Abort`, `error (key, x)` is the outcome `Throw key x`.
* Loops are structural recursions, or take fuel and have the distinct
  outcome `OutOfFuel`; theorems then show a bound on the fuel that is always enough.
* A cell address is a cell index (`Z`), the start of the arena has index 1, the null pointer is 0.
* The heap is a finite map from cell indices to cells `(type, car word, cdr word)`.
  A `TBYTES` cell carries its payload as a byte list; the cells its payload
  runs over are not accessible as cells (reading them is `UB`).

### Layers

| layer | content |
|---|---|
| `CInt.v` | machine integers |
| `Heap.v` ... `*Model*` | transcription of the C code, one definition per C function, each citing file and lines |
| `Spec*.v` | small independent specifications (what a heap value denotes, reachability, isomorphism, reference semantics) |
| `*Proofs.v` | proofs |
| `Props*.v` | the property theorems, each closed by a lemma, followed by a concrete instance and `Print Assumptions` |

## 2. Plan per property

* C01-C05: `gc.c` is transcribed cell by cell. Specification: reachability and
  correspondence of objects. Proof: Cheney invariant (order list of copied objects determines the layout), then the relocation copy.
* C06: client machine over roots; simulation up to heap isomorphism, C01/C02 give that a
  collection is a stutter.
* C07: allocation functions; freshness and frame.
* C08: stack array as a map with bounds; push/pop laws by induction over balanced sequences.
* C09-C14: list functions on the heap against `is_list`/`repr`.
* C15-C17: vectors, structs, strings against lists of values/bytes.
* C18-C20: hash tables and interning against abstract maps by induction over histories.
* C21-C24: math functions against `Z`.
* C25-C26: `div.c`, `ntoab.c`, `abtol.c` against `Z`.
* C27: byte memory as a function; each function against list specs.
* C28: qsort on lists of elements, permutation + sorted; refutation with equal elements.
* C29: read buffer as a state machine; every schedule of short reads.
* C30: environment as a list of strings; histories.
* C31: vsnprintf with a bounded buffer.
* C32-C34: reader and writer as functions on character streams and heaps. Inputs that are not texts of data (`C34_any_input`, `C34_any_file`): by induction on the number of calls left, every path through the reader either stops or leaves less input; each character pays for eight calls and twenty cells. What is read is a tree of pairs, so that the functions that walk over it end.
* C35-C38: the eval/apply machine step function against a big-step semantics. The builtins that programs of C35 and C44 can call are those of `EvalPrimSpec.v`: pairs and lists (cons car cdr set-car! set-cdr! list length null? pair? last-pair memq assq acons append2 append-reverse core:reverse!), eq?, arithmetic and comparisons (+ - * / modulo = < > ash logand logior logxor lognot), char->integer, integer->char, and vectors (make-vector vector-length vector-ref vector-set! list->vector). Each is specified there by what it does to values and to the store; calls outside those clauses (errors, overflows, lists longer than the width `w` for the builtins that copy) have no derivation.
* C39: malloc over brk.
* C40: integer encodings.
* C41: command lines; the calls of getopt follow a relation that gives every command line its options.
* C42: a directory is a list of entries, grouped by the kernel as it likes; the calls of readdir follow the list, by induction over the groups.
* C43: memory with the PATH, the name and the search buffer; one round of the search per element, with the string functions of C27; induction over the elements.
* C44: the semantics of programs (`TopSpec.v`) on top of that of C35; the text of a program is a set of pairs of its own (`TopRep.v`) that the expansion changes in place; the loop of `begin_expand` follows the derivation.
* C45: vfprintf reads directives as vsnprintf does (`FmtModel.v`); its output is the list of the bytes written, each with its descriptor. The specification is C31's, except for strings with a precision.
* C46: a second big-step relation, `raises` (`EvalErrSpec.v`), beside `eval` of C35: which error an expression signals, and the store by then. Each of its rules is matched by steps of the eval/apply machine, on the same representation of expressions, stores and environments as C35 (`EvalRaise.v`, `EvalRaiseSteps.v`, `EvalErrMain.v`); global tables also say which names have no variable. `error()` is the outcome `RThrow key x` of the model.
* C47: the directive loops of vsscanf and vfscanf, on the byte memory of `LibModel.v` and the parser of numbers of C26; a file is the list of bytes still to be read (C29). The specification (`ScanSpec.v`) is a relation between template, input and the items stored. Proved by induction on it; the round trip combines it with C31.
* C48: a relation `program_raises` (`TopErrSpec.v`) beside `run_program` of C44: the forms up to the one that goes wrong are run as in C44, that one signals an error as in C46, for names that have no global variable at that moment. Proved in `TopErr.v` by following the loop over the forms up to the failing form (lemmas of C44), then the evaluator up to error() (lemmas of C46).
* C49: the definitions of library procedures as expressions (`SchemeSpec.v`), and inductive specifications of lists, tails and paths in the store. That the definition makes the procedure is read off `run_form` of C44; what a call computes is proved in `SchemeLib.v` by induction on the list or the count, building a derivation of the semantics of C35 and C44. `C49_call_program` (and its instance `C49_map_program`) composes that with C44, down to the evaluator's states. `odd?` of a negative odd number is #f, because the remainder is -1: `C49_odd_refuted`. Not covered: the other procedures of the library, those that use macros such as `let loop`, `cond` and `case`, and procedures passed as arguments that have side effects.


## 3. Trusted base

* The kernel of Coq 8.16.1, including `vm_compute` (used only in the `Example`s and in the `_refuted`
  theorems about concrete states) and `coqchk`, which re-checks the compiled files.
* Libraries: Coq's standard library and std++ (finite maps, lists).  No axiom is stated in the development.
* `Print Assumptions` is run after the theorems in every `Props*.v` file.  It prints
  `Closed under the global context` for every theorem listed in `MANIFEST.json`: no theorem depends on an axiom,
  not even on those of the standard library.
* `coqchk` also lists, as part of the loaded standard library, the sealed items of `Coq.ssr.ssrunder`
  (`Under_rel`, `Under_rel_from_rel`, `Under_relE`, `Over_rel`, `over_rel`, `over_rel_done`, `under_rel_done`), which std++
  loads and no theorem here uses.
* That the definitions in the `*Model*.v` files say what the C code does.  Each cites the lines it transcribes.  This is checked by
  reading only: the code was not run.

## 4. What is modelled, and what is not

| code | model | left out or simplified |
|---|---|---|
| `src/gc.c` | `Heap.v`, `GcModel.v` | statistics and debug output; `gc_up_arena` (the arena grows by `realloc`; the model gives the arena its full size from the start); `MES_MAX_ARENA` and friends are parameters |
| `src/core.c`, `src/lib.c`, `src/vector.c`, `src/struct.c`, `src/string.c`, `src/hash.c`, `src/symbol.c`, `src/module.c` | `DataModel.v` | printing of error messages; procedures that only print |
| `src/mes.c`, `src/builtins.c` | `BootModel.v`, `Builtins.v`, `PrimModel.v` | command line, environment variables, loading the boot file; builtins without a model are a distinct outcome when called |
| `src/math.c` | `MathModel.v` | nothing |
| `src/eval-apply.c`, `src/stack.c` | `EvalModel.v`, `StackModel.v` | the theorems are about evaluation without macros: expressions and definitions in bodies (C35), programs with top-level definitions (C44); macros are in the model of the evaluator but no symbol of the programs may be the name of one; `primitive-load` and the module hooks |
| `src/reader.c`, `lib/mes/fdgetc.c`, `fdungetc.c`, `src/posix.c:62-191` | `ReadModel.v` | files are byte lists that `read` delivers in order |
| `src/display.c` | `DisplayModel.v` | display of ports, hash tables and closures beyond their tags |
| `lib/mes/div.c` | `LibDivModel.v` | the ARM entry points |
| `lib/string/*.c`, `lib/mes/*str*.c`, `lib/ctype` | `LibModel.v` | the functions listed in C27; no locale |
| `lib/mes/ntoab.c`, `abtol.c`, ... | `LibNumModel.v` | |
| `lib/stdlib/qsort.c` | `LibSortModel.v` | the comparison function is a parameter |
| `lib/mes/{__buffered_read,fdgetc,fdungetc,fdgets}.c`, `lib/linux/{_open3,_read,lseek}.c`, `lib/posix/{buffered-read,write}.c`, `lib/stdio/{fgetc,ungetc,fgets,fread,fseek}.c` | `IOModel.v` | the kernel is an arbitrary schedule of short answers on one open file; `O_APPEND`, signals |
| `lib/linux/{malloc,brk}.c`, `lib/stdlib/{calloc,realloc,free}.c`, `lib/posix/{getenv,setenv,unsetenv}.c` | `AllocModel.v` | the kernel grants `brk` up to a limit |
| `lib/stdio/vsnprintf.c`, `snprintf.c`, `sprintf.c` | `FmtModel.v` | floating point conversions |
| `lib/stdio/vfprintf.c`, `fputc.c`, `lib/mes/fdputc.c` | `FprintfModel.v` | floating point conversions; failing writes |
| `lib/stdio/vsscanf.c`, `vfscanf.c`, `sscanf.c` | `ScanModel.v` | floating point conversions; the message about directives that are not supported; the file as a list of bytes |
| `lib/posix/getopt.c` | `GetoptModel.v` | error messages; strings are lists, `strchr`, `strlen` and `strncmp` are what C27 says; `getopt_long_only` is modelled but nothing is proved about it |
| `lib/dirent/readdir.c`, the layout of `lib/dirent/opendir.c`, `lib/linux/getdents.c` | `DirModel.v` | the system call is a list of answers; `opendir`'s open, fstat and fcntl are not modelled, nor `closedir` and `rewinddir` |
| `lib/mes/search-path.c`, `lib/posix/execvp.c`, `execl.c`, `execlp.c` | `ExecModel.v` | debug output; `access` is a predicate on names; `getenv` gives the address (C30); the system call `execve` is the result of the model |
| `module/mescc/{as,bytevectors}.scm`, `number->string`, `remainder`, `abs` of `mes/module/mes/scm.mes` | `MesccModel.v` | the number encodings only |
| `map1`, `map`, `not` of `mes/module/mes/boot-0.scm`; `cadr` and its like of `base.mes`; `list-head`, `list-tail`, `remainder`, `even?`, `odd?` of `scm.mes`; `srfi-1:member` of `srfi-1.mes` | `SchemeSpec.v` | as expressions, run by the semantics that C44 proves the evaluator follows |
| programs that use the interpreter's heap | `ClientModel.v` | not code of the repository: the clients C06 quantifies over |

Not modelled: the system calls themselves, floating point, signals, fork, time, the M2-Planet and MesCC builds of the sources,
mescc's C front end and code generator, the Scheme library in `mes/module` except for the procedures named above.

## 5. Properties that are false as one would first state them

Where the code does not do what a user would expect, the statement in `properties.jsonl` says so and a theorem with the suffix `_refuted` proves the
deviation, about all states where that is possible and about a concrete one otherwise.  These are findings about the code, not
gaps in the model.

## 6. Tests against wrong programs

`seeded/LOG.jsonl` records edits of the model that stand for realistic bugs and the theorems that failed to prove with them.  An edit that no
theorem noticed led to a stronger theorem, or is recorded with the reason why the English claim still holds.
