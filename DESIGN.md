# Formal model of zerotao/libzt in Rocq (Coq 8.16.1)

## 1. Method

* `/repo` is read as text only.  Every Gallina definition that models code carries a
  comment `(* file:lines *)` naming the C it models, and says where it simplifies.
* C results are modelled with `Verif.Prelude.outcome`:
  `Ok v` (normal return), `Abort` (a `zt_assert`/`abort()` fired), `UB` (undefined behaviour: out of
  bounds access, NULL dereference, signed overflow, use after free ...), `Loop` (the fuel of a model loop
  ran out; theorems exclude it or exhibit it).  A totalised default is never used to hide a failing branch.
* Numbers: `Z` for C integers, with `mod 2^w` written wherever the code relies on wrap-around;
  `nat` for lengths and positions.  Data model is LP64, two's complement, signed `char`, little endian host.
* Files: `XModel.v` (model definitions only), `XSpec.v` (where a property needs vocabulary of its own; it does not
  mention the model, or only its types), `XProofs.v` and further helper files (lemmas), and `PropX.v` (the `Theorem`s
  named after the property, `Cnn_...`, each followed by `Print Assumptions`, and `Example`s that show that a concrete
  case meets the hypotheses).
* If the code violates a property, the property keeps its full statement in `properties.jsonl`; the model proves
  `..._refuted` (a concrete witness, evaluated by the kernel) and, where useful, the strongest guarded theorem,
  suffixed `_partial`.

## 2. Per property: what is modelled and how it is proved

| id | files (under `rocq/theories/`) | proof |
|----|-------|-------|
| C01-C03 | `BaseModel`, `BaseSpec`, `BaseBits`, `BaseProofs`, `BaseDecode`, `PropBase`, `PropBaseNull`: encode/decode loops over byte lists, the six definitions with their tables, size computations | induction over groups of bytes; finite sweeps of table entries; bit lemmas |
| C04 | `IntModel`, `IntProofs`, `PropInt`: each macro instantiated by `[MIN,MAX]` and width | case analysis, nonlinear arithmetic |
| C05, C45 | `TimeModel`, `TimeProofs`, `PropTime`, with the normalising `while` loops on fuel | arithmetic; loop invariant |
| C06 | `HashModel`, `HashProofs`, `PropHash`: FNV loops on Z mod 2^32/2^64 | induction; bit lemmas (`Bits`) for the folding macros |
| C07-C14 | `CstrModel`, `CstrSpec`, `CstrProofs`, `CstrNum`, `CstrItoa`, `CstrSearch`, `CstrText`, `CstrTok`, `PropCstr`, `PropExact`, `PropBasename`, `PropCstrExact`: C strings as byte lists, IDX/CONVERT macros, explicit access checks | induction on strings |
| C15 | `PtrArrayModel`, `PtrArrayProofs`, `PropPtrArray`, `PropMove`: state (slots, count, size) | refinement to lists by induction over histories |
| C16 | `BufModel`, `BufProofs`, `PropBuf`: allocation size, base, start and top offsets | invariant; refuted after partial drain |
| C17, C18 | `ArrayModel` (zt_array.c and zt_bstream.c), `ArrayProofs`, `BstreamProofs`, `Blocks`, `PropArray`, `PropOutside`: byte vectors | refinement; round trip by induction over the op list |
| C19-C21 | `TableModel`, `TableProofs`, `TableCopy`, `TableKeys`, `PropTable`, `PropTableCopy`; `SetModel`, `SetProofs`, `PropSet`: bucket array of chains, parametric hash/cmp | refinement to association lists |
| C22-C23 | `LlistModel`, `LlistProofs`, `PropLlist`: heap-level cells | induction on chains, separation predicate (`Sep`, `Heap`), permutation/sortedness |
| C24-C25 | `ElistModel`, `ElistProofs`, `PropElist`: heap of prev/next pairs | ring predicate |
| C26 | `RbtModel`, `RbtRep`, `RbtSearch`, `RbtInsert`, `RbtRemove`, `RbtIter`, `PropRbt`: pointer-level red-black tree with parent links | zipper representation; invariants and refinement to sorted lists |
| C27 | `MemModel`, `MemPool`, `MemProofs`, `PropMem`, `PropMemInit` | invariant over histories |
| C28 | `EzModel`, `EzSpec`, `EzProofs`, `EzHistory`, `PropEz` | induction over pool trees |
| C29 | `Ipv4Model`, `Ipv4Proofs`, `PropIpv4` | mask arithmetic, refinement |
| C30-C31 | `Sha1Model`, independent `Sha1Spec` (FIPS 180-4), `Sha1Proofs`, `Sha1Stream`, `Sha1Final`, `PropSha1` | induction over chunks |
| C32 | `RandModel`, `RandProofs`, `RandArray` (init_by_array as a sequence), `PropRand` | window invariant on the state array; uniqueness of the described sequence |
| C33 | `UuidModel`, `UuidProofs`, `UuidParse`, `UuidGen`, `PropUuid` | base conversion lemmas |
| C34 | `FormatModel`, `FormatSpec`, `FormatProofs`, `FormatRun`, `PropFormat` | induction over the pieces of the format; feed lemma for any callback; digit-loop lemma; callback-invariant lemma |
| C35 | `CfgModel`, `CfgSpec`, `CfgProofs`, `CfgFile`, `PropCfg` | map lemma for insert, induction on histories and on the lines of a file; refutations |
| C36, C46 | `OptsModel`, `OptsSpec`, `OptsProofs`, `OptsParse`, `OptsWrap`, `PropOpts` | induction on the item list, on argv, on the text left to print |
| C37-C38 | `TpModel`, `TpSpec`, `TpProofs`, `TpShut`, `PropTp`, `PropTpJobs`, `PropTpLive`, `PropTpKill`: small-step interleaving semantics of any number of threads | invariants over all schedules; progress measure; deadlock witness |
| C39 | `LogModel`, `LogSpec`, `LogProofs`, `PropLog` | induction on message texts; histories of loggers |
| C40 | `AtexitModel` (on `ElistModel`), `AtexitSpec`, `AtexitProofs`, `PropAtexit` | histories with callbacks that register callbacks |
| C41 | `GcModel`, `GcSpec`, `GcProofs`, `GcHistory`, `PropGc`, `PropGcPace` | tri-colour invariant; measure for the pace |
| C42 | `PathModel`, `PathSpec`, `PathProofs`, `PropPath`: a file system of directories, files and refusals | induction on the separators of the path |
| C43 | `UnitModel`, `UnitSpec`, `UnitProofs`, `PropUnit`, `PropUnitProgram` | induction on suites and tests |
| C44 | `MacrosModel`, `MacrosProofs`, `PropMacros` | case analysis, bits |
| C47 | `ProgModel`, `PropProg` | the C11/C13 theorems on texts, induction on the PATH left to search |
| C48-C49 | `DaemonModel`, `PropDaemon` | loop invariant on the descriptor table; retry lemma |
| C50-C51 | `AssertModel` (on `LogModel` and `CstrModel`), `AssertSpec`, `PropAssert` | the C13 and C39 theorems; case analysis |
| C52-C53 | `ThreadsModel`, `PropThreads`: callback tables, pthreads result mapping, pool with pipes as one thread sees it | induction on histories; C05 for the deadline |
| C54-C56 | `ReplaceModel`, `PropReplace`: asprintf on a heap of blocks, percent_m and vsyslog on bounded buffers, basename | case analysis over all answers of malloc and printf; induction on the format |
| C57-C58 | `HelpModel`, `HelpSpec`, `PropHelp`: what the option parser prints, on top of `OptsModel.wrap` | induction on the table, C46 for the wrapping |
| C59-C60 | `RegModel`, `RegSpec`, `PropReg`, `PropFigures`: the list of all pools, groups, figures and heaps, on top of `MemModel` | invariant over histories of a program that knows only the answers; C27 for each pool |
| C61 | `TmemModel`, `TmemSpec`, `TmemProofs`, `TmemTables`, `PropTmem`: zt_table.c on the pools of `RegModel`; a node's datum carries its pool element | invariant over histories of any number of tables (node pool's elements in use = nodes of the table + lost ones); the leak of zt_table_del counted exactly (C61_del), refuted by a concrete program, excluded for programs that delete near the front (C61_gentle) |
| C62 | `TptrModel`, `TptrSpec`, `TptrProofs`, `TptrEach`, `TptrSelf`, `PropTptr`: zt_table.c with nodes at addresses linked by next pointers, released nodes unreadable, any allocator; for_each with a callback that may use the table; copy onto itself | refinement of `TableModel` (representation predicate: disjoint chains); invariants for three families of callbacks; refuted for callbacks that delete another key, or only some keys |
| C63 | `SptrModel`, `SptrSpec`, `SptrProofs`, `PropSptr`: zt_set.c on the tables of `TptrModel`; sets named by position so that arguments may coincide; destroy callback | invariant (every set represented, distinct members, exact counter), exact effect of union/intersection/difference as a function on member lists (`absorb`), derived in-place results; refuted by concrete programs |
| C64 | `AmemModel`, `AmemSpec`, `AmemProofs`, `AmemSim`, `PropAmem`: the functions of zt_array.c and zt_bstream.c over headers, streams and data blocks at addresses an arbitrary allocator picks; by-reference data as blocks that may or may not come from malloc | simulation: the memory is, up to order, the blocks of the live values plus the dropped blocks; induction over programs; by-reference cases for every memory |
| C65 | `ImemModel`, `ImemSpec`, `ImemProofs`, `ImemSim`, `ImemStep`, `PropImem`: zt_ipv4_tbl.c over the registry of pools (RegModel, TmemModel): pools found by name, every row, node and address an element that must be in use and large enough | simulation with the tables as values (Ipv4Model) plus counts of elements never given back: the elements in use in the pools of each name are, up to order, those of the live tables plus the lost ones, and the row pools' sizes descend; induction over programs. The larger-table overrun is proved undefined after every such history |
| C66 | `CmemModel`, `CmemSpec`, `CmemProofs`, `CmemSim`, `CmemStep`, `PropCmem`: zt_cfg on a heap of blocks at arbitrary fresh addresses, every struct and string a block; strings handed out kept by the caller | simulation with the configurations as values (CfgModel, C35), a ghost layout giving the address of everything, permutation of the heap (`Perm`); the lost blocks counted exactly; dangling reads shown UB. Not modelled: malloc failure, the stack buffers of the parser |
| C67 | `HeapModel` (blocks of any kind at arbitrary fresh addresses), `PmemModel`, `PmemSpec`, `PmemProofs`, `PmemSim`, `PmemStep`, `PtrDel`, `PropPmem`: the struct, the block of pointers and the members of any number of pointer arrays on one heap, members shared between arrays | simulation with arrays as lists of member numbers; the arithmetic is PtrArrayModel's (C15), its exact delete (`PtrDel`) decides how often the callback runs; programs that free a member twice proved UB. Not modelled: malloc failure, callbacks other than free |
| C68 | `BmemModel`, `BmemSpec`, `BmemProofs`, `BmemSim`, `BmemStep`, `PropBmem` on `HeapModel`: structs, blocks and pointers into blocks of any number of buffers; data added from the caller's memory, from pointers into any buffer, from whole buffers | each buffer in memory is a BufModel buffer (C16), that is a byte string with the drained count, block size and believed size, also in its failures (UB matched with UB); pointers tracked by growth and emptying counters; simulation over whole programs. Not modelled: allocation failure, realloc in place |
| C69 | `TimeModel` (zt_time as a whole, with getrusage a parameter that may itself take time, the static calibration time, the results and locals at addresses), `PropZtime` | C05's lemmas for the four subtractions, under all aliasing; invariant over all histories of timings and calibrations: the calibration time is 0. Not modelled: float reporting, nested timing |
| C70 | `HexModel` (reader and callback as parameters, both line buffers, the text of the default printer), `HexSpec`, `PropHex` | invariant of the loop (address, positions and contents of both buffers as functions of the bytes read); exact outcome for every callback; digits by evaluation over the 256 bytes; text by induction. Partial: a last line of 15 bytes is missing |
| C71 | `FloatModel` (doubles as rationals, every operation followed by rounding to 53 bits, nearest even), `PropFloat` | general lemmas: relative error at most 2^-p, numbers of p bits unchanged; monotonicity from the error bound. Not modelled: exponent range (not reached) |
| C72 | `FloatModel` (double and float), `PropFloat` | composition of the error bounds; counterexamples by evaluation. Not modelled: negative times, the printed text |
| C73 | `UraceModel` (steps of zt_uuid4: each access to a static or to a block atomic; threads ending), `PropUrace` | induction over the schedule (bits); simulation of C33 for calls one after the other; invariant of the blocks for 620 steps after a first call; counterexamples by evaluation. Not modelled: weak memory, accesses that tear, distinctness of the UUIDs of overlapping calls |
| C74 | `LraceModel` (zt_log.c by single accesses to the default pointer, the mutex, a logger; contexts per thread), `LraceSpec`, `LraceProofs`, `LraceCalm`, `PropLrace` | one invariant over all schedules (who holds the mutex and what it knows, what each thread printed, a count of every logger handed in and out); a weight that every step lowers; counterexamples by evaluation. Not modelled: weak memory, changing levels and options meanwhile |
| C75 | `UrepModel` (zt_unit.c with every struct and string as a heap block, and the characters printed), `UrepSpec` (lines; tests and suites as values), `UrepProofs`, `UrepRead`, `PropUrep` | simulation of values by the heap, with the lost texts as an exact list, by induction on the calls; the readers `verdicts` and `unquote` are written from the format, not from the printing code; counter-examples for texts lost at a second run, apostrophes, names over 26 characters, newlines in names, tests run by name |
| C76 | `AraceModel` (zt_atexit with one access to shared memory per step, any number of threads, any schedule, on `AtexitModel`'s heap and exit), `AraceSpec` (registered and called callbacks, subsequences) | Invariant over all schedules: published callbacks form a chain whose next links lead to older ones or the head, unpublished ones are private (`C76_threads`: never undefined; at exit a subsequence of the callbacks in LIFO order, beginning with the last registered); `C76_apart`: calls that do not overlap lose nothing; `C76_returns`: no thread waits; `C76_lost_refuted`, `C76_exit_refuted`: a callback lost; exit during a registration uses freed memory |
| C77 | `OomModel` (zt_cstr_split, _cut, _tok with the zt_ptr_array they fill, zt_opt_string, zt_opt_string_array, zt_buf_expand, each request for memory granted or refused), `OomSpec` (strings read back, number of refusals) | each loop is shown to be one that adds given pieces; invariant on the blocks in use (`C77_split`, `C77_cut`, `C77_tok`, `C77_array`, `C77_string`: exact count of what is missing, no leak, abort or undefined only after a refusal); `C77_enough`; `C77_lost_refuted`, `C77_copy_refuted`, `C77_string_refuted`, `C77_buf_add_refuted`, `C77_buf_reserve_refuted` |
| C78 | `TailqModel` (the TAILQ macros of compat/sys/queue.h on a heap of entries with a forward pointer and the address of the pointer to them; the calls of a pool on its two queues with calloc and free), `TailqSpec` (a queue is the list of its entries, what each macro does to it, what a program may call; two FIFO lists for a pool) | one lemma per macro over the blocks of one queue and a frame, any number of queues in one memory, induction over the history (`C78_queues`, `C78_pool`); `C78_twice_refuted`, `C78_self_refuted` show that the conditions are needed |
| C79 | `SplayModel` (the SPLAY macros of compat/sys/tree.h on a heap of elements with two links; __node is a block that lives during a call), `SplaySpec` (the tree as a sorted set: what is below, equal and above a key) | invariant of the splay loop over the three trees in memory (left, middle, right) that keeps the in-order sequence, then one lemma per function, induction over the history (`C79_splay`); `C79_remove_refuted`, `C79_next_refuted` |
| C80 | `StailqModel` (the SLIST, STAILQ and SIMPLEQ macros of compat/sys/queue.h; one model, a parameter tells whether heads know their last element), `StailqSpec` (a state is the list of elements of every initialised head, what each macro does to it and when it may be called) | one lemma per macro: the list of the head in memory as linked segments, the other lists untouched; induction over the history (`C80_lists`); disjointness of the lists and equal answers of the three kinds are consequences; removals outside the contract are undefined after every history |
| C81 | `BlistModel` (the LIST macros of compat/sys/queue.h), `BlistSpec` (as for C80) | one lemma per macro: forward links as segments, backward ones as the address of the pointer to each element; the other lists untouched; induction over the history (`C81_lists`) |
| C82 | `CircleqModel` (the CIRCLEQ macros of compat/sys/queue.h; pointers to elements and to heads are two kinds of values, using a head as an element is undefined), `CircleqSpec` | the queue as a list linked forwards and its reverse linked backwards; one lemma for each direction for the conditional write (head or neighbour), one for all four insertions; induction over the history (`C82_queues`) |
| C83 | `RbMacModel` (the RB macros of compat/sys/tree.h; the parts that are the text of zt_tree.c are the definitions of `RbtModel`) | RB_PREV by the mirror image of the zipper argument for next; the loops by induction on the in-order sequence; histories by reduction to C26 plus the new calls |
| C84 | `SepModel` (strsep of zt_win32.c on a block of bytes) | first separator or none; induction over the fuel of the loop with the part already cut as prefix; the fields specified by recursion and characterised by `C84_fields` |
| C85 | `SsplitModel` (str_split of zt_unit.c on a vector of slots and a copy of the string, with `SepModel`) | the counting loop = number of fields; invariant of the filling loop: as many slots left as fields; `C85_by_name` ties it to the abstract str_split of `UnitModel` (C43) |
| C86 | `NptrModel` (nodes of zt_ipv4_tbl.c as blocks with next pointers, shared by any number of tables) | refinement of `Ipv4Model` (C29): chains disjoint from fresh nodes; induction over programs; the violations computed for every address and size |

Every property above is expressible in a model.  Status, theorem names and what is missing are in `MANIFEST.json`.

## 3. Trusted base

* The Coq 8.16.1 kernel, including its `vm_compute` reduction machine (`native_compute` is not used).
* What `Print Assumptions` lists for each theorem: section 4.
* The reading of the C source into Gallina, cited line by line in each `XModel.v`.  The reading fixes: LP64, two's
  complement, signed plain `char`, little endian host, glibc (for `calloc(0)`, `strtol`, `snprintf`), the Linux build.
* Each model's own simplifications: section 5 and the header comment of each `XModel.v`.
* The specifications (`XSpec.v` and the definitions at the top of `PropX.v`) as a rendering of the English statements.

Libraries: only Coq's standard library is imported (`ZArith`, `List`, `Lia`, `Permutation`, `Sorted`, `Ascii`/`String` for
literals ...).  No plugin, no functor, no module type, no `Axiom`, no `Admitted`.

## 4. Assumptions reported

`Print Assumptions` answers "Closed under the global context" for every theorem `Cnn_...`: no axiom is used, neither of
the standard library nor of this development.

## 5. What is modelled and what is not

All allocation functions succeed unless stated (zt_malloc.c aborts on failure; `MemModel` models a failing malloc, `OomModel` failing requests of zt_cstr, zt_buf and zt_opts).

| source | model | left out or simplified |
|---|---|---|
| zt_base.c, .h | all of it | - |
| zt_int.h | all macros, asserts enabled | - |
| zt_time.c, usleep of zt_time.h | all (`TimeModel`, floats in `FloatModel`) | the text of `zt_time_print_result` |
| zt_hash.c, .h | all | - |
| zt_cstr.c | all functions (`CstrModel`, the hex dumper in `HexModel`) | - |
| zt_ptr_array.c | all functions; also on a heap with shared members (`PmemModel`) | a callback other than free |
| zt_buf.c | all functions; the blocks and pointers into them in `BmemModel` (C68) | realloc always moves; a failing realloc in `OomModel` (C77) |
| zt_array.c, zt_bstream.c | all functions; which blocks they allocate, replace and free in `AmemModel` (C64) | allocation failure |
| zt_table.c | all functions | nodes are list cells in `TableModel`, which `TptrModel` (nodes at addresses) is proved to refine; `TmemModel` adds the pools they and the tables live in; bucket array not in the state |
| zt_set.c | all functions (`SetModel`; `SptrModel` with coinciding arguments and destroy) | zt_set_remove together with coinciding arguments |
| zt_llist.h, zt_list.h, zt_stack.h, zt_queue.h | all, on a heap | - |
| zt_tree.c, .h | all, on a heap | - |
| zt_mem.c, .h | pools (`MemModel`), list of pools, groups, figures, heaps (`RegModel`) | the printing of the display functions, names as memory |
| zt_ez_mempool.c | all | block sizes and contents |
| zt_ipv4_tbl.c | all; the pools in `ImemModel` (C65), nodes shared by tables in `NptrModel` (C86) | inet_addr is a parameter; allocation failure |
| zt_sha1.c | all | alignment, strict aliasing |
| zt_random.c, .h | all (`RandModel`, floats in `FloatModel`) | - |
| zt_uuid.c | all; overlapping calls of zt_uuid4 in UraceModel | weak memory, failing allocations |
| zt_format.c | all | the digits of doubles (given by the C library's sprintf) |
| zt_cfg.c, cfg_private.c, cfg_ini.c | all; the heap in `CmemModel` (C66) | strtod acceptance is a parameter; allocation failure |
| zt_opts.c | all (`OptsModel`, `HelpModel`) | stdout never fails |
| zt_threads.c 264-600, zt_threads_pthreads.c | all, interleaved (`TpModel`) | weak memory; see `TpModel.v` |
| zt_threads.c 1-262, init/start/kill and the pipes, return values of zt_threads_pthreads.c | all, for one thread (`ThreadsModel`) | - |
| compat/sys/queue.h 364-464 (TAILQ), and the queue operations of zt_threads.c on them | all but the static initialisers (`TailqModel`) | locks (`TpModel`) |
| compat/sys/queue.h 79-361, 467-573 (LIST, SLIST, STAILQ, SIMPLEQ, CIRCLEQ) | all (`BlistModel`, `StailqModel`, `CircleqModel`; the static initialisers are _INIT) | the rest of an element is one integer |
| compat/sys/tree.h 62-298 (SPLAY), 303-751 (RB) | all (`SplayModel`; `RbMacModel` with the shared text in `RbtModel`) | SPLAY: the comparison depends on keys only; RB: RB_AUGMENT is empty |
| zt_win32.c 110-136 (strsep) | all (`SepModel`) | separators inside the string's own block |
| zt_log.c, zt_log/*.c | all; several threads in `LraceModel` (C74) | the printf language is modelled by shape |
| zt_atexit.c | all, with libc's atexit/exit; called by several threads in `AraceModel` (C76) | callbacks that call exit or longjmp |
| zt_gc.c | all | links of the lists (C24) |
| zt_path.c | all | symbolic links, concurrent changes |
| zt_unit.c, .h, zt_unit_cpp.cpp | all; what is printed and allocated, and C++ exceptions, in `UrepModel` (C75) | output of setup and teardown functions |
| zt_macros.h | value macros | macros that expand to declarations |
| zt_progname.c | Linux build | - |
| zt_daemon.c | all | log output, sleep |
| zt_assert.c, .h, zt_malloc.c | all | the C library's allocator is a parameter; a failing assertion inside another module's model is `Abort` |
| replace/asprintf.c, basename.c, vsyslog.c | all | printf itself is a parameter |

Not modelled: the rest of zt_win32.c (one-line calls of Windows functions), examples and tests.

## 6. Testing the theorems against wrong programs

`tools/mutate.py` edits one definition of a copy of the model (`auto`: swapped operators, off-by-one constants, dropped
updates, swapped branches; `hand`: edits written by hand), rebuilds what depends on it and records which theorems fail.
Survivors were either shown to be equivalent programs or led to a tightened theorem; both are recorded in
`seeded/LOG.jsonl`.  Lesson kept throughout: a statement that mentions a constant or helper of the model moves with the
mutation, so statements use literals and specification-side definitions.

## 7. What the proofs say about the code (defects found)

Each is a theorem `..._refuted` in the file named, with a concrete witness.

* zt_base (C02, C03): `*out == NULL` with a non-zero `*out_bytes` produces nothing or writes through NULL; odd base16 accepted.
* zt_int (C04): unsigned sub and signed div accept or reject wrong operands.
* zt_cstr (C07-C14): odd sizes overrun in bin/hex; itoa off by one; rany, chr, rchr, rspn, rcspn answers; cmp ignores the last
  character; empty strings in cat, upto, tok; a byte of 128 and more is never found by chr.
* zt_ptr_array (C15), zt_buf (C16), zt_array (C17), zt_bstream (C18): see MANIFEST notes.
* zt_table (C61): zt_table_del drops the nodes between the first of a chain and the deleted one without releasing them, and
  zt_table_destroy ignores that the node pool then cannot be destroyed; a pool of the program called zt.table.pool is used for tables.
* zt_array, zt_bstream (C64): zt_array_set_data (and zt_bstream_set_data) overwrites the data pointer without freeing; zt_array_resize of an array whose length is 0 but whose data is not NULL (zt_array_set_length 0,
  zt_bstream_truncate) callocs without freeing; zt_array_free frees data that was only lent to the array; zt_bstream_set_array with the stream's own array leaves a dangling pointer;
* zt_ipv4_tbl (C65): tables take rows, nodes and addresses from the oldest pools of three fixed names, so a table larger than an earlier used one writes past the end of a row; searches leak an address each, bad texts a node, and a used table's memory is never given back.
* zt_cfg memory (C66): a replaced string is never freed (which is what keeps pointers handed out valid); a refused boolean
  leaves three blocks; a file that fails to parse leaves everything read so far; a string is dangling once its configuration is closed.
* zt_ptr_array ownership (C67): after zt_ptr_array_move_idx_to_idx the array cannot be freed with its members (double free, and the overwritten member is lost); after zt_ptr_array_cat at most one of the two arrays can; zt_ptr_array_del of a member held several times calls the callback once per copy removed, and leaves copies behind (C15_del_exact says which).
* zt_buf memory (C68): once something was drained, an addition that does not fit the rest of the block is undefined, and zt_buf_reserve reports success without making room; zt_buf_add_buf of a buffer to itself loses its contents, or reads freed memory if it has to grow; a pointer from zt_buf_get is dead after growth.
* zt_time (C69, C45): zt_time_calibrate subtracts the measured overhead from itself, so it always records 0; INT_MAX calls overflow the counter; the macro usleep does not parenthesise its argument;
* zt_hexdump (C70): a last line of exactly 15 bytes is never shown; zt_hexdump_str stops at byte 255 and gives negative values to isprint for bytes 128-254;
* zt_time_result_to_elapsed (C72): times above three days are off by more than the hundredths printed;
* zt_uuid4 in several threads (C73): the static pointer to the state is shared: two first calls in the same second can return the same UUID, or one
  reads past the end of the state; a thread that ends frees the block another one is using.
* zt_unit (C75): test->error is overwritten without being freed when a failing test runs again (or sets two errors); error texts are put between apostrophes without doubling those inside, so `c == 'x'` makes the report invalid YAML; yaml_value indents by the absolute value of 30 - length, so that names over 26 characters are followed by more and more blanks; `suite.test` on the command line prints no error text; the C++ handler for char pointers does not catch string literals, whose text is then reported as unknown.
* zt_atexit in several threads (C76): cb_stack has no lock (the FIXME at zt_atexit.c:31): registrations that overlap lose callbacks; exit() while another thread is inside zt_atexit calls a callback, frees it and then reads it again.
* out of memory (C77): zt_cstr_split, zt_cstr_cut and zt_cstr_tok leave out pieces they cannot copy and report success, because zt_ptr_array_add takes NULL and answers 0; they use NULL if the string itself cannot be copied; zt_buf_expand ignores a failed realloc (contents lost, memcpy to NULL, success reported); zt_opt_string leaks the previous value when the option is repeated and stores NULL if there is no memory.
* tail queues (C78): an entry inserted again while queued makes TAILQ_FOREACH endless; TAILQ_CONCAT of a queue with itself empties it; a pool has no function that frees the entries still queued when it is killed (one block each, `C78_pool`).
* basename with a suffix (C13): the exact answer for every path and suffix is `C13_basename_suffix_exact` (`PropBasename`): everything from the last occurrence of the suffix on is cut, wherever in the name it is ("b.c.d" without ".c" is "b"); a suffix that does not begin with a dot leaves its first character behind ("foo" without "oo" is "fo"), and a name that is the suffix, dot first, is answered with the separator before it ("a/.c" without ".c" is "/.").
* outside the contracts, exactly (`PropCstrExact`, `PropOutside`, `PropMove`, `PropBaseNull`): every string, slice and set for the string functions on empty strings, first characters and characters from 226 on (C10, C11); zt_cstr_dup overruns its block for every size that does not fit size_t (`C11_dup_overflow`); set_length past the block, truncation at a position other than the start, move to the index one past the end (C17, C18, C15); the allocating mode of the base functions asked for with a size that is not 0 (C02, C03); odd numbers of hexadecimal digits (`C03_base16_odd_exact`).
* singly-linked lists (C80): _REMOVE of an element that is not in the list and _REMOVE_HEAD of an empty list follow the null pointer (`C80_remove_absent`, `C80_remove_empty`, every history); an element inserted twice makes _FOREACH endless.
* LIST (C81): an element inserted twice makes LIST_FOREACH endless; one removed twice is written through its old links and other elements become irremovable.
* circular queues (C82): the first or last element removed with the head of another queue makes that head be used as an element (`C82_wrong_queue`, every history); an element inserted twice makes CIRCLEQ_FOREACH endless.
* red-black tree macros (C83), strsep (C84): no deviation; RB_EMPTY is right where its copy zt_rbt_empty is inverted (C26).
* str_split (C85): elts counts empty fields that the vector does not hold (`C85_count_refuted`, exactly when there is one); in zt_unit_run_by_name this is the NULL that C43 shows to be dereferenced.
* zt_ipv4_tbl (C86): zt_ipv4_tbl_add_node does not clear next: a node added twice makes searches endless (`C86_twice_refuted`), a node in two tables mixes or cuts their chains (`C86_two_tables_refuted`, `C86_lost_refuted`).
* splay trees (C79): SPLAY_REMOVE returns the element it was given to compare with instead of the one it took out; SPLAY_NEXT reads the links of the element it was given, so an equal element that is not in the tree gets a wrong successor.
* zt_log in several threads (C74): zt_log_get_logger reads log_default_ptr twice outside the mutex, so that a message is dropped when another thread
  uninstalls the logger in between; zt_log_close compares outside the mutex and can undo another thread's installation; zt_log_logger(NULL) can return a
  logger that stays the default.  Not modelled: zt_log_dprintf is two statements, so that after an `if` the message is always printed.
* zt_set (C63): intersection or difference into one of the argument sets never computes it (nothing changes, or the union results);
  union in place stops at the first common element; elements shared by union are given to the destroy function once per set.
* zt_table (C62): a callback of zt_table_for_each that deletes the next key makes it read a released node; one that deletes
  a key but not those before it in the chain loses bindings that were not deleted.
* zt_table (C19, C20): del loses bindings further down the chain; bucket counts for hints 32768..65534; case-insensitive and
  binary keys.  zt_set (C21): remove and union.
* zt_list (C24): join with an empty list.  zt_queue (C25): dequeue of an empty queue.  zt_tree (C26): `zt_rbt_empty` inverted.
* zt_mem (C27), zt_ez_mempool (C28), zt_ipv4_tbl (C29: overrun of `in[32]`), zt_sha1 (C30, C31: the caller's data is
  overwritten; tostr unterminated), zt_random (C32: empty seed array), zt_uuid (C33), zt_format (C34: INT_MAX, INT_MIN, %.99f).
* zt_cfg (C35: cycles, empty values), zt_opts (C36, C46: group letters, long words), zt_threads (C38: lost wake-up in kill),
  zt_log (C39: GNU strerror_r, % in names), zt_gc (C41: calls during an incremental scan), zt_path (C42: hang),
  zt_unit (C43: names), zt_time (C45: n+1 calls), zt_progname (C47: last PATH entry), zt_daemon (C48: hang without limit),
  zt_malloc (C51: overflowing sizes), zt_threads (C52: finalizer survives a reset; C53: wrong descriptors closed, failed starts unnoticed),
  replace/vsyslog.c (C55: both buffers overrun, %%m), zt_opts (C57: no blank after
  names of 30 bytes; C58: help exits with status 255), zt_mem (C59: a name that cannot be copied; C60: a failed group
  keeps its first pool or wraps its index, a group with unnamed descriptors cannot be destroyed).
