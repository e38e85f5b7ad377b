# Formal model of horazont/dragonstash in Rocq (Coq 8.16.1)

The properties are in `properties.jsonl` (C01 …), the theorems in `rocq/theories/Props*.v` (plus
the samples in `ConcPlay.v`), the map from properties to theorems in `MANIFEST.json` (written by
`tools/mani.py`), the wrong programs the theorems were tested against in `seeded/LOG.jsonl`.

## 1. Trusted base

* Coq's kernel, including `vm_compute` (used for concrete samples and refutation witnesses only).
* `Print Assumptions` is run under the property theorems in the `Props*.v` files. **Every property theorem
  is "Closed under the global context": no axiom at all.** (`vcheck` also lists the seven
  opaque constants `Coq.ssr.ssrunder.Under_rel.*` of the standard library: they belong to the
  implementation of the tactic `under`, come in with `ssreflect` through std++, and no theorem
  uses them.) No axioms of our own, no `Admitted`, no functors or module types; `Variable`/`Hypothesis`
  only inside sections.
* Libraries used: Coq's standard library and std++ (gmap, lists, sorting). No axioms from std++.
* The reading of the C++ code as Gallina definitions. Every definition of the model cites file and
  lines in /repo and says where it simplifies.
* The environment, as stated in section 4.

## 2. How the model is built

* A failed `assert`, an uncaught exception, an out-of-bounds access or other undefined behaviour
  is the outcome `Crash`; an exception a caller can catch is `Throw`; a loop that is not bounded by
  structure has fuel and ends in `Diverge` when it runs out. All of these differ from error
  results (`Err errno`). Fuel is always shown to suffice where a theorem claims termination.
  Asserts count as active: the code base cannot be compiled with `NDEBUG` (`debug_mutex.hpp` uses a
  member only declared without it, and `emplace` has a needed side effect inside an assert,
  cache.cpp:923).
* Integers are `Z` with explicit wrap-around (`w64`, `w16`…) where the C++ types wrap; where a
  theorem needs that a counter does not reach 2^63 or 2^64, the statement says so.
* Properties are stated with the read operations of the API (state, lookup, getattr, readdir,
  replies sent …) and small specification files that do not mention the model's internals:
  `BlocklistSpec.v`, `CacheSpec.v`, `FsSpec.v`, `FsNews.v`, `ConcSpec.v`, `ConcKernel.v`, and the head
  of the `Props*.v` files.
* Where the English property is false of the code, the full statement is kept, a theorem
  `…_refuted` (or `…_full_false`) gives a concrete run of the modelled program that breaks it, and the
  strongest true part is proved (suffix `_partial` when something is missing), if possible with the exact
  condition (`…_exact…`).
* Beside each theorem there is an `Example …_sample` (or `…_nonvacuous`) with a concrete non-trivial case that meets
  its hypotheses.

### Layout (rocq/theories)

| files | content | models |
|---|---|---|
| `Prelude` | outcomes, results, errno, wrap-around | error.hpp |
| `Blocklist`, `BlocklistSpec`, `BlocklistProofs/Sem/Main/More/Thm/Final/Small`, `PropsBlocklist`, `PropsMore` | slots of the mapped file incl. stale ones behind the end, superblock, binary search, mark, fsck, shrink, open, truncate_access; C01–C09 | cache/blocklist.{hpp,cpp} |
| `BlocklistStores`, `BlocklistCrash`, `BlocklistKept`, `PropsCrash` | mark() store by store and killing the process between two stores; C63 | blocklist.cpp:103-150, 186-545 |
| `Keys`, `Codec`, `PropsCodec` | little-endian words, memcmp order, key and record encodings; C30–C32 | cache/inode.*, cache/direntry.*, key functions of cache.cpp |
| `CacheModel` | the six tables, every operation of CacheTransactionRO/RW, InodeReferences, opening | cache/cache.{hpp,cpp} |
| `CacheInv/Ops/World/Spec/Facts/Frame/Hist/Runs/Dir/Api`, `PropsCache`, `PropsCache2`, `PropsAbort` | invariant, specifications, histories with commits, aborts, crashes; C10–C25 | |
| `Txn`, `TxnFacts/Inv/Step/Global`, `PropsTxn`, `PropsTxn2`, `PropsTxn3` | any number of readers, nested writers, hooks, mutex, crash; C26–C29, C47, C48, C10 again | cache.hpp:391-560, cache.cpp:278-432, 741-805 |
| `Fuse`, `PropsFuse`, `PropsMore` | Request life cycle, DirBuffer(Plus), the kernel's record parser; C42, C46 | fuse/request.*, fuse/buffer.*, fuse/interface.hpp |
| `Fs`, `FsSpec`, `FsInv/Cases/Dir/Attrs/Loops/Main/Know/News/Hist/Play/Stream`, `PropsFs`, `PropsFs2` | all handlers of the file system on an arbitrary backend; C33–C41 | fs.cpp, fs.hpp, main.cpp:116 |
| `InMem`, `InMemInv`, `PropsMem`, `PropsMem2`, `PropsMem3`, `PropsMem4` | C43, C44 | backend/in_memory.* |
| `Local`, `PropsLocal` | C45, C50, C51 | backend/local.* |
| `PropsEnd`, `PropsEnd2` | file system on the in-memory backend: C49, C52 | |
| `FsPlusStream`, `FsPlusAlone`, `PropsPlus`, `PropsLeak` | runs of readdirplus requests; C64; bound on leaked references C38 | fs.cpp:308-372 |
| `Mount`, `PropsMount` | the mount command; C65, C66 | main.cpp, interface.hpp:44-106, 293-318 |
| `LocalIO`, `PropsLocalIO` | LocalFile on a table of descriptors and files of bytes; C67 | local.cpp:51-108, 207-223 |
| `LocalDir`, `PropsLocalDir` | LocalDir on the C library's directory streams; C76 | local.cpp:110-181, 225-238 |
| `MountDirs`, `PropsMountDirs` | the handlers of `Backing` on the directory objects of `LocalDir`; C77 | fs.cpp:38-248, local.cpp:110-181, 225-238 |
| `ConcCalls`, `PropsConcCalls`, `PropsConcWhere`, `PropsConcLegal`, `PropsConcOwn` | the threads of `Conc` with the calls of the backend as steps; C78, C80, C81 | fs.cpp:38-249 |
| `PropsConcDirs` | concurrent requests and directory objects; C79 | fs.cpp:196-249, local.cpp:110-181 |
| `CachedDir`, `PropsCachedDir` | CachedDir over a cursor; Result<T>; C68, C69 | cache.cpp:104-227, error.hpp:40-182 |
| `PropsReply` | C33: exactly when a second reply function is called | fs.cpp:251-301 |
| `FsWalk`, `FsPaths`, `PropsWalk` | paths the kernel knows inodes by, last word per path, stat of a whole path; C70 | fs.cpp:147-372, cache.cpp path/emplace |
| `PropsAgain` | C82 | fs.cpp:38-249, cache.cpp emplace/unlink/writelink/rewrites |
| `PropsTidy` | C83 | fs.cpp:38-249, cache.cpp clean_orphans and its callers |
| `PropsNumber` | C84 | fs.cpp:38-96, cache.cpp emplace |
| `FsFlags`, `PropsList` | which requests set and clear the complete mark, `ls` of a path connected and disconnected; C71 | fs.cpp:75-306, cache.cpp emplace/update_flags |
| `Backing`, `PropsBacking` | the handlers call by call on a backend with a state (any relation), dispatch of the callbacks; C72 | fs.cpp:38-249, base.hpp, interface.hpp:44-291, interface.cpp |
| `LmdbDamage`, `PropsDamage`, `PropsDamage2`, `PropsDamage3` | the byte-level cache on tables with arbitrary contents; C73 | cache.cpp:298-333, 434-689, 829-1178, inode.cpp, direntry.cpp |
| `FsBytes`, `FsBytesSim`, `PropsBytes` | the handlers of the file system on the byte-level cache; C74 | fs.cpp, cache.cpp |
| `LmdbViews`, `LmdbViewsSim`, `PropsViews` | the write operations of the cache with views into database memory; C75 | cache.cpp:815-1192 |
| `FsLinks`, `FsChange`, `PropsLinks` | link targets and attributes along histories: C61, C62 | fs.cpp:145-194, cache.cpp:298-333, 1092-1115 |
| `FsClean`, `LocalFs`, `PropsLocalFs` | file system on the local backend over a host: C59, C60 | fs.cpp, local.cpp:110-281, main.cpp:77-81 |
| `Lmdb`, `LmdbRel`, `LmdbOps`, `PropsLmdb` | cache.cpp again, on tables from byte strings to byte strings; C56 | cache.cpp:232-1192, inode.hpp/cpp, direntry.hpp/cpp |
| `Calls`, `PropsCalls` | single calls of `Cache`; C57 | cache.cpp:278-294, 345-401 |
| `Mutex`, `PropsMutex` | debug_mutex with a relaxed atomic owner; C58 | include/dragonstash/debug_mutex.hpp |
| `Conc`, `ConcSpec`, `ConcSim/Main/Fault`, `ConcKernel`, `ConcHist`, `PropsConc`, `ConcPlay` | the handlers as concurrent threads; C53–C55 | fs.cpp under main.cpp:116 |

## 3. What is modelled and what is not

Modelled function by function: all of `blocklist.cpp`; `inode.cpp`, `direntry.cpp`; `error.hpp`; all of `cache.cpp`, with the calls of `Cache` itself (345-401) and `with_rw_txn`; `TransactionHook`; `debug_mutex`; `request.cpp`, `buffer.cpp`; `fs.cpp`; `in_memory.*`;
all of `local.*` (LocalFile with its system calls: `LocalIO`; LocalDir with the C library's streams: `LocalDir`; the rest: `Local`).

`main.cpp` is modelled with the answers of CLI11 and libfuse as parameters (Mount.v).

Not modelled: the playground; the FUSE interface
boilerplate (one line per callback) except the dispatch rule "an unhandled request is answered ENOSYS"; `tests/`. In the
models of the cache and of the threads the mutex is represented by its owner; `debug_mutex` is modelled on its own (C58).

## 4. Assumptions about the environment

* **LMDB / lmdb-safe** (sources absent): a set of ordered maps with memcmp key order, one write transaction at
  a time, nested write transactions, snapshots for readers, atomic and durable commit. Errors like MDB_MAP_FULL are
  not modelled; lmdb-safe throws them, nothing in the handlers catches them, and so they end the process before the
  commit: in the models the crash that the histories (C10–C29) and the schedules may have at any point.
* **std::mutex**: mutual exclusion. No fairness is assumed (C54 holds for every schedule).
* **POSIX files/mmap**: a store into the mapping is visible in the file; growing gives zero bytes; no I/O errors.
  For C63 the stores of `mark` reach the file in program order, entries in two 8-byte words, memmove entry by entry
  in the direction for overlapping ranges; the process is killed, the machine is not (no power failure).
* **CLI11** (only for C65): `require_option(1, 1)` counts the options of the group that were given at least once; `count()` finds
  options inside of option groups; a parse error ends the program with a code of its choice.
* **POSIX descriptors** (C67): `open` gives an unused descriptor, `close` releases it even if it reports an error (Linux), pread/pwrite act on the
  file's bytes at the offset, atomically.
* **LMDB cursors** (C68): MDB_NEXT_DUP/MDB_PREV_DUP leave the value as it was when there is none further.
* **libfuse**: `fuse_add_direntry(_plus)` writes the kernel's record layout (modelled, and read back by an
  independent parser); the reply functions send one message.
* **Layout of C++ objects**: packed structs and alignment as on x86-64; `make_orphan` copies 8 bytes from a
  `Result<ino_t>` object (cache.cpp:846-847), which is taken to be its value.
* **Kernel** (only for the theorems that say so): sends forget only for what it was told about, uses as directories
  only directories it holds, keeps the directory of a lookup/opendir in flight.
* **Backend**: an arbitrary oracle per request; `backend_ok` only demands that numbers fit their C++ types.

## 5. Per property: what is modelled, how it is proved

| id | model and proof |
|---|---|
| C01, C02 | slot array with stale tail, binary search, trim/split/merge with u16 counts and u64 wrap. Refinement of the entry list to a function block → state (`expected`, BlocklistSpec). False in general: witnesses; proved for safe calls; for files of ≤ 65535 blocks exact characterisation of the calls that go wrong (`mark_bug`). blocks(ABSENT) is a constant (C02_absent). |
| C03 | fsck as a function of slots and superblock; exact characterisation (no empty run) and witness. |
| C04, C05 | structural invariant over all histories of valid calls (order, capacity, counters in range). |
| C06, C07 | truncate_access incl. its reads of stale slots; conditional theorem, three refutations; the exact value for every start and the exact condition for a right answer (BlocklistAccess.v, PropsAccess.v). |
| C08 | file = superblock + slots; sessions of marks, fsck, shrink, close, open. |
| C09 | false in general (two refutations). Locality holds for every call after safe ones, even for an unsafe call of many pieces (`BlocklistTwice`: the entries behind the current piece stay disjoint); idempotence for safe calls of any length (after the first call every piece lies in one entry). |
| C10–C14, C16–C23 | executable model of the tables and operations; invariant `Inv` (CacheInv) preserved by every operation, specification per operation in terms of reads, induction over histories with commits, aborts, crashes (`reachable`). |
| C15 | history invariant "held inode is unchanged" (CacheRuns.held). |
| C24 | reference table as a finite map; ledger over arbitrary operation lists. |
| C25 | rollback list; refuted in three ways; counts restored whenever abort returns; exact conditions for the whole claim (`C25_iff`) and for the assertion failure (`C25_abort_fails_iff`) in `PropsAbort`. |
| C26 | hooks with user functions as data, an effect log; induction over hook lists. |
| C27–C29, C47, C48 | world of committed db, reference table, mutex owner, stack of nested writers, readers (Txn); invariant `GInv` over every interleaving and crash. |
| C30–C32 | byte-level encoders and parsers; round trips, exact characterisation of accepted inputs, order of keys. |
| C33–C38, C41 | handlers as functions of state and backend; `hist`: all legal histories of requests from the first mount, incl. restarts; invariant `FInv`; what is believed about a name is defined from the requests and the backend's answers alone (`belief`, FsNews). |
| C39, C40 | runs of readdir calls with arbitrary other requests in between (`stream`). |
| C42, C46 | Request objects as a state machine over any number of objects; byte-exact buffers and an independent parser. |
| C43, C44 | tree of nodes with handles; resolution specified by an inductive relation on components. |
| C45, C50, C51 | path mapping on byte strings, os as a record of functions, histories of descriptors. |
| C49, C52 | composition of the file system and the in-memory tree through `backend_of_tree`. |
| C53 | forward simulation between interleaved single steps (Conc) and the atomic object (ConcSpec): readers linearise at their begin (readdirplus: begin and mutex acquisition), writers at the publication of the database. |
| C54 | progress from the lock order (LMDB writer before mutex; who owns the mutex never waits for the writer lock), a decreasing measure on programs. |
| C55 | every legal concurrent trace is linked to a `hist` of Fs.v with the replies (ConcHist.linked); the sequential theorems apply. |
| C56 | relation `Rep` between the six byte tables and the decoded ones (injective keys, order preserved by the encoding); every read is equal, every write keeps it; induction over histories. The record lengths and key/record agreement then follow from the invariant `Inv`. |
| C57 | each call is a run begin, operation, clean, commit of `CacheWorld`; the theorems of PropsCache apply; failed operations of the calls leave the transaction unchanged. |
| C58 | threads step by step; the owner word has a modification order and per-thread views (relaxed atomics: reads may be stale but coherent); invariant "a thread that does not hold sees no store of its own id at or after its view". |
| C59 | histories whose backend is `local_backend root H` for a host `H` per request; the theorems C34, C35, C41, C50 carry over along `map_path`, because the paths of held inodes consist of ordinary names (FsClean: invariant over histories). |
| C60 | non-interference: one step and whole histories are equal on two hosts that agree on every path that leads below the root; the same invariant shows that only such paths (and `root/..`) are asked for. |
| C61 | `told_link h x` (a fold over the history: the last answer of a backend to readlink of the link `x`) equals the stored link for every inode that exists; per-step frame on the links table, inode numbers are not reused. |
| C62 | `concerns s x q` (specification of the requests about `x`); per-step frame on attributes; `belief` from C35; paths are never regained (FsClean). |
| C63 | every function below mark() again as a list of file contents, one per store; an uninterrupted run equals Blocklist.v; invariant over all points: each live slot describes only blocks whose state is admissible (old state, or new state in the range) — insensitive to order and duplicates, so it survives any number of kills. A second invariant, which also holds between the two stores into one entry: the entries that start before the range keep slot, start, state and their part before the range, all others start behind it (C63_before_range). The full statement is false (four witnesses). |
| C64 | runs of readdirplus requests (`stream_plus`), each in two halves (snapshot, then references) with arbitrary requests in and between them; entries come from the snapshot, the entries whose reference cannot be taken are skipped; an entry linked at the time of the reply is never skipped. |
| C65 | `main` as a function from the command line and the answers of the libraries to the list of things acquired and released; a stack machine (`held`) is the specification; case analysis over all answers. |
| C66 | `is_disconnected`: the backend is the in-memory file system after set_connected(false); case analysis per request, induction over histories. |
| C67 | simulation: the specification has no descriptors, objects are open on a file or closed; relation: the descriptor of an open object names its file, different objects have different descriptors, closed objects have m_fd = 0, which no open object has. Refuted with close() (two witnesses). |
| C68 | simulation by the machine (position, end reached) that describes what the class does (`late_step`); the listing by induction on what is left; two refutations. |
| C69 | fold over a list of steps; refuted by one conversion; Result<void> is one more shape of result in C69_void. |
| C70 | spec: `known_as` (path of an inode, from the replies alone), `denies_path`, `believed` (last word per path), `stats` (one lookup per component, as the kernel does with an empty dcache: simplification, the kernel's own entry cache is not modelled), `direct` (asking the backend). Invariants `twalk`/`only_path`/`has_at` by induction over histories; C70_online and C70_offline by induction on the path. |
| C71 | spec: `ls` (one lookup per component, opendir, readdir to the end), `complete` (last word about completeness, a relation over the history alone), `believed` of C70. Frame `fk_fstep`: a request changes the flags of an inode only if it concerns or marks it. The English claim "once listed, listable" without "nothing heard in between" is false (`C71_refuted`): looking the directory up again, or listing its parent, clears the mark. |
| C72 | the handlers as state machines that stop at each backend call (`hstate`, `wants`, `resume`); the backend is an arbitrary relation `machine Y`; a run is finite (a directory whose listing never ends is not modelled). C72_same: the same program as Fs.v on the table of the answers given; C72_histories / C72_every_history: the histories are the same, so all history theorems hold on such backends; the rest by induction on runs. |
| C73 | the operations of Lmdb.v on tables about which nothing is assumed but that keys and records are bytes. Exact conditions per operation: record_says (what 96 bytes say), first_from (first key in memcmp order), settles/bad_entry (where a scan for a name ends), climbs/rises (going up the parents; pigeonhole on the stored records). LMDB's own page structure is taken to be intact, and records to be aligned. Writes: `PropsDamage2.v`; the loop over the entries of a directory that is reclaimed is decided by the first entry in key order that is not `sound_child` (C73_children). Cleaning, the whole recursion (`PropsDamage3.v`, C73_clean_iff): given well-formed orphans (`orphans_ok`) it ends if and only if every directory that goes has sound entries only (`in_order`), with damage anywhere else, and then does what `cleaned` says; otherwise an assertion fails or it never ends. Induction over the inodes removed so far (`gone`), ending by counting records. False in general, hence partial: see C73_lookup_crash, C73_path, C73_open_no_counter, C73_undetected_refuted. |
| C74 | the handlers a second time, on Lmdb.v's tables of byte strings (`bfstep`, `bfrun`, `bfopen`). Simulation (`s_fstep`) with the decoded handlers of Fs.v for every request; C74_same for all lists of requests, C74_history carries every `hist` down to bytes. Hypothesis `req_ok`: inode numbers and attributes are in the ranges of their C++ types. The C74_damaged theorems put C73 on top of the handlers. |
| C75 | `LmdbViews.v`: every write operation with the distinction between the program's bytes and views (MDBOutVal, string_view, in-place structs). A view read after an update shows `junk`, an arbitrary function of the number of updates and of the view; a cursor put under a key in database memory is split into removal and insertion if the length of the record changes (as mdb_cursor_put does). Simulation with Lmdb.v for every operation under `sized` (inode records of 96 bytes), which every operation keeps; all histories by induction. Exact effect of the cursor puts of update_flags, writelink and emplace on a record that is too long. Assumed of LMDB: cursors of a transaction follow its updates. |
| C76 | `LocalDir.v`: the table of the C library's open directory streams (a freed pointer may be given again), objects with their pointer, other processes changing what a stream still returns (an arbitrary function). Spec without pointers: an object is open on a directory with entries to come, or closed. Simulation by induction on histories (C76_partial), exact condition for undefined behaviour (C76_exact). False in general, hence partial. |
| C77 | `MountDirs.v`: a machine for `Backing.v` whose states are those of `LocalDir.v`, or "undefined" after a call that is undefined behaviour; other processes may change the contents of streams before every call. Invariant on the handler's program counter (which object is open when), induction on runs and on histories. Existence of runs: C77_served. |
| C78 | `ConcCalls.v`: handlers as trees with database accesses, operations and backend calls as single steps; the machine answers and moves, others may move it at any time; `dir` is destroyed after the reply. Refinement to `Conc.v`: a thread is related to the program in which the answers it is going to get are filled in (read off the rest of the run), so the simulation is by induction over the run with the remaining labels at hand; the handlers of `Conc.v` with the table of a trace equal the filled-in trees up to `peq` (equality at every value, no extensionality axiom). C53 then gives linearizability. Exclusive use: only a thread with LMDB's writer lock calls the backend (invariant). C78_where (`PropsConcWhere.v`): an inductive predicate on the program tree (every call it can make continues what `asks` allows) carried along the run; `path` is read from the committed database, which cannot change while the thread holds the writer lock. |
| C79 | the machine of C77 under the threads of C78. Which object a program holds is an inductive predicate on its tree (every path ends with a commit that destroys it); invariant: a map from threads to (object, stream), injective, that is exactly what is open beyond the start. |
| C80 | `PropsConcLegal.v`: the simulation of C78 read backwards: a thread of `Conc.v` that can step belongs to a thread that can step or is at a call, so C54 and C55 carry over; termination by a well-founded order on program trees in which a listing may only end. `path_spec` turns the path of C78_where into names. |
| C81 | `PropsConcOwn.v`: an inductive predicate on the program tree and the calls made so far (every leaf replies as `replies` says), carried along the run of one thread; other threads' steps do not touch it. |
| C82 | `PropsAgain.v`: a database is settled for a request if the backend's answers are already in it; every request leaves a settled database (cases of the handlers, the listing's session; names keep the path they had, `pathkeeps`), and a settled database is not changed. The answer again: the path stays (the backend did not deny it, `twalk_step`) and the entry is the one written before. |
| C83 | `PropsTidy.v`: following parents from any inode ends at the root or at a removed inode (parents have smaller numbers), so the property is that every removed inode is held; each operation's effect on the set of removed inodes from `emplace_spec`/`unlink_ino_spec`/`open_cache_spec`. |
| C84 | `PropsNumber.v`: from C70's invariants: the path a known inode has is the only one it can ever have, and the walk of a path, with its type, is lost only by a denial; two walks of one path end at one inode; a walk that was lost is never regained by the same inode (`pathkeeps`). |

Every property can be expressed in the model.

## 6. Findings (defects of the code that the proofs brought up)

Each is a theorem `…_refuted`, a hypothesis that cannot be dropped, or visible in an `_exact` theorem.

* **blocklist**: mark over several runs can leave a block of the last run unmarked (C01_refuted); an
  empty run makes fsck throw (C03_refuted); repeating such a call changes states again, and after two of them
  a further call changes a block outside of its range (C09_refuted_*); truncate_access reads stale slots and out of bounds (C06_refuted_*);
  blocks(ABSENT) constant (C02_absent); shrink asserts on files whose size is not a multiple of the page
  size; open does not validate entries ≤ capacity; mmap failure compared with nullptr; not crash-atomic (C63: lost blocks, invented blocks, lasting damage; a file whose creation was interrupted is rejected for ever); overflow for sizes
  near 2^64.
* **cache**: emplace does not check the parent: self-parent makes path() endless (C22_unchecked_parent_refuted); unlink(parent, child) ignores
  parent (C14_unlink_child_refuted); an orphaned directory is listed forever (C18_orphan_refuted); finish_dir_rewrite reports EBADFD
  in a corner case (C19_finish_result_refuted); abort does not undo dooming, can crash, and inode numbers reused after an abort may be
  doomed for ever (C25_refuted_*); hooks' documentation wrong in two cases (C26_doc_refuted_*); destroying a transaction leaks its
  references (C28_drop_*); lock of a missing inode succeeds; re-emplace clears SYNCED; counts wrap at 2^64; commit after abort returns success;
  a second abort dereferences null.
* **file system**: readdir replies twice after an error and throws (C33_second_reply_refuted); releasedir never
  acknowledged (C33_releasedir_refuted); a listing cut short by an error counts as complete, so files vanish offline (C36_refuted);
  readdirplus leaks a reference for the entry that did not fit (C38_refuted, C38_plus_leak; at most one per inode and request: C38_leak_bound) and does not check SYNCED (C40_plus_refuted); an entry of exactly
  the buffer's size gives a premature end (C39_exact_fit_refuted); "." and ".." of a local listing become children (C52_refuted); a readlink
  error removes the inode, even a directory; link targets are cut at NUL.
* **file system, threads**: the directory object of a listing is destroyed after the commit and after the reply, outside of every lock: a backend that relies on being called by one request at a time
  sees this call at any time (C78_late_close).
* **CachedDir** (unused): the first entry of several is never returned, the last one twice, the end is final (C68_refuted_*).
* **Result**: converting a failed result to another type gives a successful one (C69_refuted; in the repository only successes are
  converted, by make_result of a constant).
* **mount command**: -S has no backend behind it: null pointer (C65_sftp_refuted); the exit status is always 0, and execute() computes it the wrong way round (C65_status_refuted, C65_inverted).
* **FUSE glue**: swap does not swap the default error; reply_none is not checked (C42_reply_none_unchecked).
* **in-memory backend**: zero-length write past the end extends the file; removing an open file, emplacing an existing name and huge counts are
  undefined behaviour (C43_*_refuted).
* **local backend**: ".." and NUL escape the root (C45_refuted, C45_nul_refuted); readlink cuts targets and throws (C50_refuted*);
  after close() the destructor closes descriptor 0 (C51_refuted), so that bytes written to one file can end up in another, and calls on a
  closed object reach descriptor 0 (C67_refuted_*); a symbolic link of the source that is replaced by a file ends the process at
  the next readlink (C59_readlink_refuted); errors that end a listing are dropped (C59_error_hidden); listing the root reads and shows the
  attributes of the directory above the source (C60_parent_refuted).
- The root inode has mode S_IFDIR without permission bits and the times of the first mount for ever; the backend's root is never asked
  (C62_root, C62_root_refuted).
- **damaged cache database**: one unreadable directory entry ends the process (assertion) in lookups of the names that sort after it in its
  directory, and of missing names in its and in earlier directories (C73_lookup_crash); a loop of parents makes path() run for ever (C73_path);
  removing a directory (or opening the database with a removed one still in it) never ends if the inode record of one of its entries is
  lost, unreadable or names another parent (C73_unlink_hangs, C73_unlink_dir, C73_open_orphan_dir);
  without the counter record numbers in use are handed out again (C73_open_no_counter); altered bytes are served as data (C73_undetected_refuted).
- **local backend**: a directory object uses the null pointer when called after closedir(); if closedir() reports an error the stream is closed a
  second time, which may be the stream of another object, so that one lists the directory of a third (C76_refuted_*).
- an inode record longer than 96 bytes is accepted by the parser, but setting a flag, writing a link or updating the entry then files the
  inode under a key read from memory that LMDB has just rearranged, and reports success (C75_refuted_long, C75_long_*). Only a database
  that was damaged or written by another program has such records (C75_sized).

## 7. Testing the theorems against wrong programs

`seeded/LOG.jsonl`: per attempt the edit, the claim it breaks, the proofs that failed, and the property theorems that were lost. A
scratch copy was edited and rebuilt; a failing proof was replaced by `Admitted` and the build went on, so that `Print Assumptions` shows
which property theorems depend on it. Three edits survived at first and led to new theorems (C02_absent, C46_auto, C46_auto_plus).
