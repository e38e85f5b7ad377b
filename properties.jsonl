{"id": "C01", "title": "Blocklist: state() returns the last mark covering a block", "statement": "After any sequence of Blocklist::mark(start,count,state) calls on a fresh list, state(b) is the state given by the last mark whose range contains b, and ABSENT if no mark contains b.", "quantifier": "every finite sequence of mark calls with start+count < 2^64, every block number", "why_tests_cant": "The outcome depends on how the new range overlaps the runs left by all earlier marks; tests only try a few overlap patterns.", "anchors": ["src/cache/blocklist.cpp:mark_internal", "src/cache/blocklist.cpp:mark", "src/cache/blocklist.cpp:state"]}
{"id": "C02", "title": "Blocklist: blocks(s) counts exactly the blocks in state s", "statement": "After any sequence of mark calls, blocks(s) is the number of block numbers b with state(b)=s for each of the four present states, and present_blocks() is the number of non-ABSENT blocks.", "quantifier": "every finite sequence of mark calls, every state", "why_tests_cant": "The counters are maintained incrementally by deltas on every branch; one missed branch shows only for some overlap patterns.", "anchors": ["src/cache/blocklist.cpp:mark_internal", "src/cache/blocklist.cpp:delete_range", "src/cache/blocklist.cpp:try_merge_with_previous", "src/cache/blocklist.cpp:blocks", "src/cache/blocklist.cpp:present_blocks"]}
{"id": "C03", "title": "Blocklist: fsck() never reports an inconsistency after API calls only", "statement": "fsck() does not throw on a blocklist that was only ever modified through mark().", "quantifier": "every finite sequence of mark calls", "why_tests_cant": "Requires knowing the internal run list for every history.", "anchors": ["src/cache/blocklist.cpp:fsck", "src/cache/blocklist.cpp:split_entry", "src/cache/blocklist.cpp:mark_internal"]}
{"id": "C04", "title": "Blocklist: mark() never aborts and never touches memory outside the mapping", "statement": "No assertion in mark and its helpers fails, and every entry slot read or written by mark lies inside the mapped file, growing the file when needed.", "quantifier": "every finite sequence of mark calls with start+count < 2^64 on a fresh list", "why_tests_cant": "Assertion and bounds conditions depend on entry layout produced by arbitrary histories.", "anchors": ["src/cache/blocklist.cpp:insert_before", "src/cache/blocklist.cpp:require_space", "src/cache/blocklist.cpp:grow", "src/cache/blocklist.cpp:split_entry", "src/cache/blocklist.cpp:delete_range"]}
{"id": "C05", "title": "Blocklist: entry growth is bounded and capacity is sufficient", "statement": "Each chunk of at most 65535 blocks marked increases nentries() by at most two; nentries() <= capacity() always.", "quantifier": "every history of marks", "why_tests_cant": "Universally quantified over layouts.", "anchors": ["src/cache/blocklist.cpp:mark", "src/cache/blocklist.cpp:mark_internal", "src/cache/blocklist.cpp:capacity", "src/cache/blocklist.cpp:nentries"]}
{"id": "C06", "title": "Blocklist: truncate_access() never allows reading an absent block", "statement": "If truncate_access(start,size)=r then every byte of [start,start+r) lies in a non-ABSENT block and r<=size.", "quantifier": "every history of marks, every start and size", "why_tests_cant": "The unsafe answers need particular stale tails or unaligned offsets.", "anchors": ["src/cache/blocklist.cpp:truncate_access"]}
{"id": "C07", "title": "Blocklist: truncate_access() is maximal", "statement": "For a page aligned start the result r of truncate_access(start,size) is size, or start+r is the first byte of an ABSENT block.", "quantifier": "every history of marks, every aligned start and size", "why_tests_cant": "Ranges over run layouts with adjacent runs of different states.", "anchors": ["src/cache/blocklist.cpp:truncate_access"]}
{"id": "C08", "title": "Blocklist: shrinking, unmapping and reopening lose nothing", "statement": "fsck()/shrink() and closing and reopening the file preserve state(b) for every b, blocks(s) for every s, and nentries().", "quantifier": "every list reachable by marks, fsck calls and reopenings", "why_tests_cant": "Needs the relation between file length, capacity and entry count for every reachable list.", "anchors": ["src/cache/blocklist.cpp:shrink", "src/cache/blocklist.cpp:open", "src/cache/blocklist.cpp:ensure_mapped", "src/cache/blocklist.cpp:ensure_unmapped"]}
{"id": "C09", "title": "Blocklist: marking is local and idempotent", "statement": "mark(start,count,s) does not change state(b) for any b outside [start,start+count), and repeating the same mark changes no state and no counter.", "quantifier": "every reachable list, every mark", "why_tests_cant": "Quantifies over all untouched blocks of all layouts.", "anchors": ["src/cache/blocklist.cpp:mark_internal"]}
{"id": "C10", "title": "Cache: the directory tree is always consistent", "statement": "After any history of transactions, the name view (lookup) and the inode view (readdir/name/parent) describe the same tree: lookup(p,n)=i iff name(p,i)=n and parent(i)=p, every inode has at most one (parent,name), every entry refers to an existing inode.", "quantifier": "every history of cache operations from a fresh database (emplace parents existing)", "why_tests_cant": "The two tables are updated separately on every path (emplace, overwrite, orphaning, cleaning).", "anchors": ["src/cache/cache.cpp:emplace", "src/cache/cache.cpp:make_orphan", "src/cache/cache.cpp:clean_orphans", "src/cache/cache.cpp:lookup", "src/cache/cache.cpp:name", "src/cache/cache.cpp:parent"]}
{"id": "C11", "title": "Cache: lookup after emplace", "statement": "After emplace(p,n,attrs) returns inode i, lookup(p,n) returns i, getattr(i) returns exactly attrs, parent(i)=p, name(p,i)=n, and no other name's lookup result changes except inside a replaced subtree of different type.", "quantifier": "every consistent cache state, parent, valid name and attributes", "why_tests_cant": "Must hold for every state and every other (parent,name) pair, including byte-adjacent keys.", "anchors": ["src/cache/cache.cpp:emplace", "src/cache/cache.cpp:lookup", "src/cache/cache.cpp:getattr"]}
{"id": "C12", "title": "Cache: inode number stability", "statement": "Re-emplacing an existing name with the same file type keeps its inode number; with another type it yields a number never used before in the history.", "quantifier": "every history, every re-emplace", "why_tests_cant": "Freshness is a property of the whole history.", "anchors": ["src/cache/cache.cpp:emplace", "src/cache/cache.cpp:allocate_next_inode"]}
{"id": "C13", "title": "Cache: no inode number is handed out twice", "statement": "Within a database's committed history, emplace never returns for a new entry a number that an earlier entry had, until 2^64 allocations.", "quantifier": "every committed history", "why_tests_cant": "Ranges over unbounded histories.", "anchors": ["src/cache/cache.cpp:allocate_next_inode", "src/cache/cache.cpp:Cache"]}
{"id": "C14", "title": "Cache: unlink removes exactly the named entry", "statement": "unlink(p,n) makes lookup(p,n) fail with ENOENT, and leaves every other entry outside the removed subtree unchanged; unlinking a missing name fails with ENOENT and changes nothing.", "quantifier": "every consistent state, every parent and name", "why_tests_cant": "Universally quantified frame condition.", "anchors": ["src/cache/cache.cpp:unlink", "src/cache/cache.cpp:make_orphan"]}
{"id": "C15", "title": "Cache: locked inodes survive removal", "statement": "An inode with a positive lock count stays readable with getattr and unchanged by unlink, emplace, dir rewrite and orphan cleaning, until it is released.", "quantifier": "every state and every operation, every subtree shape", "why_tests_cant": "Recursion of cleaning through arbitrary subtrees.", "anchors": ["src/cache/cache.cpp:clean_orphans", "include/dragonstash/cache/cache.hpp:InodeReferences", "src/cache/cache.cpp:lock"]}
{"id": "C16", "title": "Cache: unreferenced orphans are reclaimed completely", "statement": "After clean_orphans, every remaining orphan has a positive lock count; exactly the unreferenced orphans and, transitively, unreferenced children of removed directories are gone, and referenced children of removed directories become orphans; it terminates.", "quantifier": "every consistent state", "why_tests_cant": "Termination and completeness over arbitrary trees.", "anchors": ["src/cache/cache.cpp:clean_orphans"]}
{"id": "C17", "title": "Cache: the root always exists", "statement": "Inode 1 exists, is a directory and is its own parent in every reachable state; it can not be unlinked or orphaned.", "quantifier": "every history of operations on a fresh database", "why_tests_cant": "Invariant over unbounded histories.", "anchors": ["src/cache/cache.cpp:Cache", "src/cache/cache.cpp:make_orphan", "src/cache/cache.cpp:parent"]}
{"id": "C18", "title": "Cache: readdir enumerates every child exactly once", "statement": "Iterating readdir(dir,prev) from 0 until EOF on an unchanging directory returns '.', then '..' (except for the root, which has none), then every child exactly once with right name and inode number, and terminates.", "quantifier": "every consistent state and every non-orphan directory", "why_tests_cant": "Depends on key order (memcmp of little-endian numbers) for every set of children.", "anchors": ["src/cache/cache.cpp:readdir"]}
{"id": "C19", "title": "Cache: directory rewrite drops exactly the stale entries", "statement": "After start_dir_rewrite(d); emplace(d,n_i,...)*; finish_dir_rewrite, the directory contains exactly the names emplaced in between.", "quantifier": "every consistent state, every set of emplaced names", "why_tests_cant": "Quantifies over all pairs of old and new listings and type changes.", "anchors": ["src/cache/cache.cpp:start_dir_rewrite", "src/cache/cache.cpp:finish_dir_rewrite", "src/cache/cache.cpp:emplace"]}
{"id": "C20", "title": "Cache: symlink targets", "statement": "readlink(i) returns the bytes of the last successful writelink(i,..); writelink fails on non-links with EINVAL and missing inodes with ENOENT; link targets vanish with their inode.", "quantifier": "every history, every byte string", "why_tests_cant": "Needs the whole history.", "anchors": ["src/cache/cache.cpp:writelink", "src/cache/cache.cpp:readlink", "src/cache/cache.cpp:clean_orphans"]}
{"id": "C21", "title": "Cache: flags", "statement": "update_flags sets and clears exactly the requested bits, changes nothing else, and test_flag reads them back; re-emplace resets them.", "quantifier": "every inode state, every flag sets", "why_tests_cant": "bit-level statement over all flag words", "anchors": ["src/cache/cache.cpp:update_flags", "src/cache/cache.cpp:test_flag"]}
{"id": "C22", "title": "Cache: path() terminates and spells the lookup path", "statement": "For every attached inode, path(i) terminates and its components looked up one after another from the root lead to i.", "quantifier": "every consistent state and inode", "why_tests_cant": "Termination for arbitrary parent chains", "anchors": ["src/cache/cache.cpp:path"]}
{"id": "C23", "title": "Cache: name validation", "statement": "No stored name contains '/' or NUL or is longer than the key limit; over-long names give ENAMETOOLONG and forbidden ones EINVAL without any effect.", "quantifier": "every history and every byte string", "why_tests_cant": "All strings", "anchors": ["src/cache/cache.cpp:check_name", "src/cache/cache.cpp:emplace", "src/cache/cache.cpp:lookup"]}
{"id": "C24", "title": "Inode references: lock/release accounting", "statement": "The reference count of an inode is the number of successful locks minus releases; release never makes it negative (it is refused instead), a doomed inode can not be locked again, and dooming needs a zero count.", "quantifier": "every sequence of incref/decref/doom operations", "why_tests_cant": "Every history", "anchors": ["include/dragonstash/cache/cache.hpp:InodeReferences"]}
{"id": "C25", "title": "Cache: abort undoes lock and release", "statement": "Aborting a transaction restores every inode's reference count and lockability to that at the start of the transaction.", "quantifier": "every transaction body", "why_tests_cant": "Interaction of rollback hooks with dooming, over all bodies.", "anchors": ["src/cache/cache.cpp:abort", "src/cache/cache.cpp:lock", "src/cache/cache.cpp:release", "include/dragonstash/cache/cache.hpp:InodeReferences"]}
{"id": "C26", "title": "Transaction hooks: commit protocol guarantees", "statement": "On commit all stage-1 hooks run in order; if all succeed all stage-2 hooks run in order and no rollback runs; on failure the stage-1 rollbacks of those that succeeded and then rollbacks of all run in reverse order and no stage-2 hook runs; on abort only rollbacks run, in reverse.", "quantifier": "every list of hooks and every failure position", "why_tests_cant": "Every hook list", "anchors": ["src/cache/cache.cpp:commit", "src/cache/cache.cpp:abort", "include/dragonstash/cache/cache.hpp:TransactionHook"]}
{"id": "C27", "title": "Cache: transactions are atomic and isolated", "statement": "Changes of a write transaction are invisible to other transactions until commit, all visible after commit, and none after abort; a read transaction sees one snapshot throughout.", "quantifier": "every interleaving of transactions", "why_tests_cant": "Schedules", "anchors": ["src/cache/cache.cpp:commit", "src/cache/cache.cpp:abort", "src/cache/cache.cpp:with_rw_txn"]}
{"id": "C28", "title": "Cache: nested transactions", "statement": "Committing a nested transaction makes its effects part of the parent only; aborting it undoes exactly its own effects; hooks of a committed nested transaction run with the parent's outcome.", "quantifier": "every nesting", "why_tests_cant": "Histories", "anchors": ["src/cache/cache.cpp:commit", "src/cache/cache.cpp:abort", "include/dragonstash/cache/cache.hpp:CacheTransactionRW"]}
{"id": "C29", "title": "Cache: crash recovery", "statement": "After a crash at any point and reopening, the tree is exactly the one of the last committed transaction minus orphans, no inode is locked, and all consistency invariants hold.", "quantifier": "every crash point in every history", "why_tests_cant": "Crash points", "anchors": ["src/cache/cache.cpp:Cache", "src/cache/cache.cpp:clean_orphans"]}
{"id": "C30", "title": "Inode record codec", "statement": "Parsing the stored bytes of any inode record gives the record back; inputs that are empty, of another version or too short are rejected with EINVAL, and a misaligned buffer aborts.", "quantifier": "every record, every byte string", "why_tests_cant": "Every bit pattern", "anchors": ["src/cache/inode.cpp:parse_inplace", "include/dragonstash/cache/inode.hpp"]}
{"id": "C31", "title": "Directory entry codec", "statement": "Parsing the stored bytes of any directory entry gives its inode, mode, flags and full name back; malformed inputs are rejected with EINVAL.", "quantifier": "every entry and name, every byte string", "why_tests_cant": "Every bit pattern", "anchors": ["src/cache/direntry.cpp", "include/dragonstash/cache/direntry.hpp"]}
{"id": "C32", "title": "Keys of different directories never interfere", "statement": "The key encodings are injective and order-compatible: a prefix scan from a parent's key visits exactly that parent's entries and no others, for any parent numbers and names.", "quantifier": "every pair of 64-bit numbers, every name", "why_tests_cant": "memcmp order over little-endian keys must be checked for all numbers.", "anchors": ["src/cache/cache.cpp:lookup", "src/cache/cache.cpp:readdir", "src/cache/cache.cpp:start_dir_rewrite"]}
{"id": "C33", "title": "FS: every request gets exactly one reply", "statement": "Each handler replies exactly once for each request (or never for forget), and never twice.", "quantifier": "every handler, every cache and backend state", "why_tests_cant": "All paths incl. error paths", "anchors": ["include/dragonstash/fuse/request.hpp", "src/fuse/request.cpp", "src/fs.cpp"]}
{"id": "C34", "title": "FS: lookup reflects the backend when connected", "statement": "When the backend answers, lookup replies its attributes; when it reports an error, the cached entry is dropped and the same error is replied.", "quantifier": "every cache and backend state", "why_tests_cant": "Needs every combination of states", "anchors": ["src/fs.cpp:lookup"]}
{"id": "C35", "title": "FS: offline lookup returns the last known attributes", "statement": "When disconnected, lookup of a name returns the inode and attributes of the last successful online observation not superseded since; it never invents entries.", "quantifier": "every history of FS requests with arbitrary connectivity and backend changes", "why_tests_cant": "History property", "anchors": ["src/fs.cpp:lookup", "src/fs.cpp:opendir"]}
{"id": "C36", "title": "FS: offline ENOENT is only given for completely listed directories", "statement": "When disconnected, lookup replies ENOENT only if the directory was listed completely before (SYNCED), otherwise EIO.", "quantifier": "every history", "why_tests_cant": "History property", "anchors": ["src/fs.cpp:lookup", "src/fs.cpp:opendir"]}
{"id": "C37", "title": "FS: kernel-held inodes stay usable", "statement": "As long as the kernel's lookup count (lookups replied minus forgets) of an inode is positive, getattr on it succeeds.", "quantifier": "every history of requests", "why_tests_cant": "History property over arbitrary concurrent removals", "anchors": ["src/fs.cpp:lookup", "src/fs.cpp:forget", "src/fs.cpp:readdirplus"]}
{"id": "C38", "title": "FS: lookup counts are balanced", "statement": "The cache's reference count of each inode equals the kernel's lookup count after every request.", "quantifier": "every history of requests", "why_tests_cant": "Leaks only occur on certain buffer overflow/err paths", "anchors": ["src/fs.cpp:lookup", "src/fs.cpp:readdirplus", "src/fs.cpp:forget", "src/fs.cpp:forget_multi"]}
{"id": "C39", "title": "FS: readdir streaming", "statement": "A client that calls readdir repeatedly, each buffer larger than every entry of the directory and each call continuing at the offset of the last entry received, gets '.', '..' (the root has none) and then every child that exists throughout exactly once, no child twice and none that did not exist at one of the calls, while any other requests run in between; alone it comes to an end. Reply data never exceeds the requested size.", "quantifier": "every history before and between the calls, every directory, every sequence of buffer sizes larger than the largest entry", "why_tests_cant": "All sizes/directories", "anchors": ["src/fs.cpp:readdir", "src/fuse/buffer.cpp"]}
{"id": "C40", "title": "FS: an incompletely known directory never looks complete", "statement": "readdir and readdirplus of a directory which is not completely known (no complete listing was fetched since it was last looked up) end with EIO, never with the empty reply that means end of directory.", "quantifier": "every reachable state, directory, offset and buffer size larger than the largest entry", "why_tests_cant": "All states", "anchors": ["src/fs.cpp:readdir", "src/fs.cpp:readdirplus"]}
{"id": "C41", "title": "FS: opendir synchronises the cache with the backend listing", "statement": "After a successful connected opendir the cached directory contains exactly those names the backend listed whose attributes the backend returned and which the cache accepts as names, with these attributes, and is SYNCED; if all of them were returned and acceptable, exactly the names listed.", "quantifier": "every cache and backend state", "why_tests_cant": "All listings", "anchors": ["src/fs.cpp:opendir"]}
{"id": "C42", "title": "Request: at most one reply; a dropped request is answered", "statement": "A fuse Request object replies at most once; if dropped without reply, exactly one default error is sent; moved-from requests never reply.", "quantifier": "every sequence of operations on requests", "why_tests_cant": "All sequences", "anchors": ["include/dragonstash/fuse/request.hpp", "src/fuse/request.cpp"]}
{"id": "C43", "title": "In-memory backend: file contents", "statement": "pread after pwrite through any handle of a file returns the last byte written at every offset, zeros where nothing was written, and fewer bytes than asked for only at the end of the file; fstat reports the end of the furthest write; no legal call on a live handle is undefined behaviour.", "quantifier": "every history of calls on the in-memory file system, all offsets and counts up to SSIZE_MAX", "why_tests_cant": "Offsets including wrap-around", "anchors": ["src/backend/in_memory.cpp"]}
{"id": "C44", "title": "In-memory backend: path resolution", "statement": "lstat, open, opendir and readlink resolve absolute paths component by component: ENOENT exactly when a component is missing in the directory before it, ENOTDIR exactly when a component that is not the last is not a directory, EINVAL for malformed paths, ENOTCONN whenever disconnected; listing a directory gives \".\", \"..\" and each entry once; lstat and fstat report what was said about the object: a new object has all attributes zero except its type, update_attr sets everything but the type, and a write that makes a file longer sets its size.", "quantifier": "every history (tree) and every path string", "why_tests_cant": "All trees/paths", "anchors": ["src/backend/in_memory.cpp"]}
{"id": "C45", "title": "Local backend: path mapping stays under the root", "statement": "map_path rejects strings that are not absolute paths and maps every absolute path without '..' components to a path under the root; results of the local backend depend only on files under the root.", "quantifier": "every root and path string, working directory and operating system", "why_tests_cant": "All strings", "anchors": ["src/backend/local.cpp:map_path"]}
{"id": "C46", "title": "Direct buffer / dirent buffer bounds", "statement": "Adding entries to the FUSE buffer never writes past its allocated size and its length equals the sum of entry sizes.", "quantifier": "every sequence of additions", "why_tests_cant": "All sizes", "anchors": ["src/fuse/buffer.cpp", "include/dragonstash/fuse/buffer.hpp"]}
{"id": "C47", "title": "Cache: single writer; reference table lock is held to the end", "statement": "At most one write transaction is open at a time, and the in-memory reference table is only touched by the transaction that owns its lock, from first use to its end.", "quantifier": "every interleaving", "why_tests_cant": "Schedules", "anchors": ["src/cache/cache.cpp:inode_in_memory_locks", "include/dragonstash/cache/cache.hpp"]}
{"id": "C48", "title": "Cache: a lock taken by a read transaction protects against concurrent removal", "statement": "If a transaction has locked an inode that exists in its snapshot and committed, no later transaction removes it until release.", "quantifier": "every interleaving", "why_tests_cant": "Schedules", "anchors": ["src/cache/cache.cpp:lock", "src/cache/cache.cpp:clean_orphans"]}
{"id": "C49", "title": "End to end: file system on the in-memory backend", "statement": "On a connected in-memory backend, lookup tells the kernel exactly what the tree has under the path; after opendir the cached directory has exactly the entries and attributes of the tree's directory; if the connection is lost then, lookups in it give exactly these entries and ENOENT for all other names.", "quantifier": "every history of the tree, every history of requests, all names and paths", "why_tests_cant": "All trees and all request histories", "anchors": ["src/fs.cpp:lookup", "src/fs.cpp:opendir", "src/backend/in_memory.cpp"]}
{"id": "C50", "title": "Local backend: readlink", "statement": "readlink of the local backend returns the complete target of a symbolic link and an error for anything else.", "quantifier": "every root, path and state of the operating system", "why_tests_cant": "All sizes; races and file systems whose st_size is not the length", "anchors": ["src/backend/local.cpp:readlink"]}
{"id": "C51", "title": "Local backend: descriptors", "statement": "Every LocalFile (LocalDir) closes the descriptor it was given exactly once, at the latest when it is destroyed, and never another one.", "quantifier": "every history of opening, closing and destroying any number of objects", "why_tests_cant": "All histories", "anchors": ["src/backend/local.cpp:LocalFile", "src/backend/local.cpp:LocalDir"]}
{"id": "C52", "title": "File system: '.' and '..' of a backend listing", "statement": "The entries \".\" and \"..\" that a backend's listing contains do not become children of the cached directory.", "quantifier": "every history and backend", "why_tests_cant": "All backends", "anchors": ["src/fs.cpp:opendir"]}
{"id": "C53", "title": "Concurrent requests are linearizable", "statement": "Requests handled by several threads at the same time give the replies, and leave the database and the reference counts, of an object that handles each request in one indivisible step at some moment between its call and its reply (readdirplus: in two such steps, reading the directory and later taking its references); killing the process and mounting again is also one step.", "quantifier": "every number of threads, every interleaving of their single operations, every request sequence, backend answers and kill points", "why_tests_cant": "All schedules", "anchors": ["src/fs.cpp", "src/main.cpp:loop_mt", "src/cache/cache.cpp:commit", "src/cache/cache.cpp:inode_in_memory_locks"]}
{"id": "C54", "title": "Concurrent requests do not deadlock and are all answered", "statement": "As long as requests are in flight some thread can make a step; the threads cannot run forever without new requests; when they stop every request has been answered.", "quantifier": "every schedule, requests and backend answers (the last part: of a kernel that keeps the rules)", "why_tests_cant": "All schedules", "anchors": ["src/fs.cpp", "src/cache/cache.cpp:inode_in_memory_locks", "src/cache/cache.cpp:commit"]}
{"id": "C55", "title": "The guarantees of sequential histories hold under concurrency", "statement": "If the kernel keeps the rules (forgets only what it was told about, holds the directory of a lookup or opendir in flight), then for every schedule no thread hits an assertion, an exception of the cache or an endless loop; an inode the kernel holds stays in the cache; when all requests are answered the cache holds at least the kernel's references, exactly those without readdirplus; and there is a sequential history (C33-C41) made of the same requests with the same replies that ends in the same database.", "quantifier": "every schedule and every legal request sequence", "why_tests_cant": "All schedules and histories", "anchors": ["src/fs.cpp", "src/main.cpp:loop_mt"]}
{"id": "C56", "title": "The on-disk records carry the whole state", "statement": "The cache stores keys and records as byte strings. For every history of operations, commits, aborts and crashes with reopening, the cache that builds keys and serialises and parses every record behaves as one that keeps the decoded values: same results of every operation and every read, same exceptions; unspecified padding bytes never matter. In histories of legal calls every stored key and record has the length its reader expects (keys at most 511 bytes, inode records 96), parses, and the two directory tables hold the same entries; no assert on stored data fails.", "quantifier": "every history of typed arguments, every content of the padding bytes", "why_tests_cant": "All histories, names, attribute values and padding bytes", "anchors": ["src/cache/cache.cpp", "src/cache/inode.cpp:Inode::parse", "src/cache/inode.hpp:serialize", "src/cache/direntry.cpp:DirEntry::parse", "src/cache/cache.cpp:clean_orphans"]}
{"id": "C57", "title": "Single calls of the cache are atomic and leave nothing behind", "statement": "Each call on the cache object itself (emplace, lookup, getattr, lock, release, parent, name, path, readlink, writelink) runs one operation in a transaction of its own. Every legal call returns; a call that fails or throws changes nothing; after a write call that succeeds no unreferenced inode outside the tree is left; emplace, lock, release and writelink have exactly their documented effect and it is there after a crash; releasing a reference that is not held throws and changes nothing.", "quantifier": "every state reachable by any history of transactions, commits, aborts, crashes, and every call", "why_tests_cant": "All histories and arguments", "anchors": ["src/cache/cache.cpp:with_rw_txn", "src/cache/cache.cpp:Cache::emplace", "src/cache/cache.cpp:Cache::lock", "src/cache/cache.cpp:Cache::release", "src/cache/cache.cpp:Cache::writelink"]}
{"id": "C58", "title": "The self-deadlock check of the mutex is exact", "statement": "At most one thread holds the mutex. A call of lock() or try_lock() by the thread that holds it always throws resource_deadlock_would_occur and leaves it locked; no other thread ever gets that exception, though the owner is read and written with relaxed atomics; no thread waits for itself; a waiting lock() can proceed once nobody holds the mutex.", "quantifier": "every number of threads, every interleaving of the single steps, every value a relaxed read may return", "why_tests_cant": "All schedules and weak-memory behaviours", "anchors": ["include/dragonstash/debug_mutex.hpp"]}
{"id": "C59", "title": "End to end: file system on the local backend", "statement": "With the file system mounted on a source directory: a lookup answers with the attributes the source has at this moment for the file of that path, or with the source's error (and the entry is forgotten); opendir leaves in the cache exactly the names the source lists whose attributes could be read, with these attributes; readlink answers with the source's target and remembers it; when the source answers ENOTCONN, lookup answers what was last heard about the entry. Nothing that happens on the source ends the process, and an error while listing is not taken for the end of the directory.", "quantifier": "every history of requests and restarts, every source directory, every state of the source, changing between and during requests", "why_tests_cant": "All histories and all behaviours of the host file system", "anchors": ["src/fs.cpp", "src/backend/local.cpp", "src/main.cpp:MountCommand::execute"]}
{"id": "C60", "title": "End to end: files outside of the source directory are not visible", "statement": "If the kernel asks only what the VFS asks (ordinary names, inodes it holds), then replies and cache of a file system mounted on a source directory depend only on the files below that directory: two hosts that agree below it give the same replies and the same cache for the same requests.", "quantifier": "every history of requests and restarts, every pair of hosts that agree below the source directory", "why_tests_cant": "A non-interference property over all histories and all pairs of hosts", "anchors": ["src/fs.cpp:Filesystem::lookup", "src/fs.cpp:Filesystem::opendir", "src/fs.cpp:Filesystem::readlink", "src/backend/local.cpp:LocalFilesystem::map_path"]}
{"id": "C61", "title": "FS: symbolic link targets", "statement": "readlink with a connected backend replies the backend's answer for the link's path and remembers it, also as the size of the link. With a disconnected backend it changes nothing and replies the last target that a backend told for this link, also after a restart, and an error if none was ever told: it never invents a target. Any other error is passed on and the entry is dropped. (Targets are C strings: they end at the first zero byte.)", "quantifier": "every history of requests and restarts with arbitrary backends, every inode, every answer", "why_tests_cant": "The reply depends on the whole history of requests", "anchors": ["src/fs.cpp:Filesystem::readlink", "src/cache/cache.cpp:CacheTransactionRW::writelink", "src/cache/cache.cpp:CacheTransactionRO::readlink"]}
{"id": "C62", "title": "FS: getattr", "statement": "getattr never asks the backend and changes nothing. For an entry it replies the attributes of the last news about its name, the same as an offline lookup. Only a request that concerns an inode (a connected lookup of its name, listing of its directory, readlink of it) changes its attributes; when it has lost its path, its attributes stay as they are and it never gets a path again. The root shows the attributes of the backend's root.", "quantifier": "every history of requests and restarts with arbitrary backends, every inode", "why_tests_cant": "The reply depends on the whole history of requests; the frame property ranges over all requests", "anchors": ["src/fs.cpp:Filesystem::getattr", "src/cache/cache.cpp:Cache::Cache", "src/cache/cache.cpp:CacheTransactionRO::getattr"]}
{"id": "C63", "title": "Blocklist: killing the process in the middle of mark()", "statement": "When the process is killed in the middle of a call of mark(), at whatever store, the next process can open the list, every block outside of the range of the call is in the state it had, every block inside is in its old or its new state, and fsck() accepts the list. However often this happens, state() never reports a block in a state that no call asked for, for this block, and later calls never access memory outside of the mapping.", "quantifier": "every history of marks, of which any number are interrupted at any store, with reopening and fsck in between; every block", "why_tests_cant": "The kill point is any single store of any call; tests cannot stop the program there", "anchors": ["src/cache/blocklist.cpp:Blocklist::mark_internal", "src/cache/blocklist.cpp:Blocklist::insert_before", "src/cache/blocklist.cpp:Blocklist::delete_range", "src/cache/blocklist.cpp:Blocklist::split_entry", "src/cache/blocklist.cpp:Blocklist::open"]}
{"id": "C64", "title": "FS: readdirplus streaming", "statement": "A client that calls readdirplus repeatedly, each buffer larger than every entry of the directory and each call continuing at the offset of the last entry received, gets '.', '..' (the root has none) and then every child that exists throughout exactly once, with its number and attributes, no child twice and none that the directory did not have when one of the calls began; an entry that no longer exists when the reply is sent is left out. Any other requests may run between the calls and within them; alone the client comes to an end with exactly the children.", "quantifier": "every history before, between and within the calls, every directory, every sequence of buffer sizes larger than the largest entry", "why_tests_cant": "All interleavings of other requests with the two halves of each call, all directories and sizes", "anchors": ["src/fs.cpp:readdirplus", "src/fuse/buffer.cpp", "src/cache.cpp:lock"]}
{"id": "C65", "title": "Mount command: the right backend, everything undone, honest status", "statement": "`dragonstash mount` accepts exactly one of the backend options (-N, -L, -S) and serves with that backend, if and only if the cache opens, the session is set up, the signal handlers are installed and the mount succeeds; it stays in the foreground exactly with -d or -f; on every way out the mount and the signal handlers are undone, in the reverse order, and on a normal end also the session and the cache; the exit status is 0 exactly if nothing failed.", "quantifier": "every command line and every combination of results of the library calls", "why_tests_cant": "The command cannot run without a kernel mount; error paths depend on failures of libfuse calls", "anchors": ["src/main.cpp:MountCommand::execute", "src/main.cpp:main", "include/dragonstash/fuse/interface.hpp:Session"]}
{"id": "C66", "title": "Mount without backend: the cache is served as it is and never changed", "statement": "While the file system is mounted with -N, every request about an inode with a path is answered from the cache alone - lookup with the stored inode and attributes, or ENOENT if the directory is completely known and EIO if not; readlink with the stored target; opendir always - and no request changes anything that is stored.", "quantifier": "every history before the mount, every sequence of requests during it", "why_tests_cant": "Needs every history that could have filled the cache and every sequence of requests", "anchors": ["src/main.cpp:MountCommand::execute", "src/backend/in_memory.cpp:set_connected", "src/fs.cpp"]}
{"id": "C67", "title": "Local backend: a file object works on the file it was opened on", "statement": "Through an open file object, pread returns the bytes that are in that file (as left by all earlier pwrite calls through any object and by other processes), pwrite changes that file and no other, fstat describes it; an object can not reach any other file, and after close() every call on it fails.", "quantifier": "every sequence of open, pread, pwrite, fstat, fsync, close and destruction of any number of objects, every allocation of descriptors, every failing or short system call, changes by other processes in between", "why_tests_cant": "The descriptors are reused: what an object reaches depends on the whole history of all objects of the process.", "anchors": ["src/backend/local.cpp:LocalFile", "src/backend/local.cpp:LocalFilesystem::open"]}
{"id": "C68", "title": "CachedDir: reading a directory as a stream", "statement": "ReadDir returns the entries of the directory one after the other with the offsets 0, 1, ..., then the end of the stream; Seek(o) to the offset of an earlier entry makes the next ReadDir return that entry; no sequence of calls fails an assertion.", "quantifier": "every directory, every sequence of ReadDir and Seek calls", "why_tests_cant": "All directories and call sequences; the class has no tests and no users.", "anchors": ["src/cache/cache.cpp:CachedDir::ReadDir", "src/cache/cache.cpp:CachedDir::Seek", "include/dragonstash/cache/cache.hpp:CachedDir"]}
{"id": "C69", "title": "Result: a failure stays a failure", "statement": "A failed Result stays failed with the same error code, and a successful one keeps its value, when it is copied, moved, passed on with copy_error or converted to a Result of another type.", "quantifier": "every chain of such steps, every error code and value", "why_tests_cant": "All chains; the type checker accepts every conversion.", "anchors": ["include/dragonstash/error.hpp:Result", "include/dragonstash/error.hpp:copy_error"]}
{"id": "C70", "title": "A path of the mount is the same path of the backend", "statement": "A program that names a file by its path (the kernel sends one lookup per component) sees, while the backend is connected, exactly what the backend itself says about that path, whatever happened before: restarts, stale cache contents, entries that changed type. While the backend is disconnected it sees the last word the backend gave about that path, or an error if there is none or it was taken back. Every request about an inode is passed on under the path by which the kernel got to know that inode, and the inode keeps that path until the backend denies one of its components.", "quantifier": "every history of requests, replies, backend behaviours and restarts, every path of any depth", "why_tests_cant": "The path of an inode is rebuilt from the cached parent links; that it is still the right one holds for all histories or not at all.", "anchors": ["src/fs.cpp:Filesystem::lookup", "src/fs.cpp:Filesystem::opendir", "src/fs.cpp:Filesystem::readlink", "src/cache/cache.cpp:TransactionImpl::path", "src/cache/cache.cpp:TransactionImpl::emplace"]}
{"id": "C71", "title": "A directory listed while connected can be listed while disconnected", "statement": "A program that lists a directory by its path sees, while the backend is connected, exactly the names the backend lists there. While the backend is disconnected it sees the names about which the last word of the backend was that they exist, and the listing ends regularly exactly if the last thing the file system heard about the directory was a listing (and with EIO otherwise). In particular, a directory that was once listed shows the same names again, and ends regularly, after any number of restarts, as long as nothing is heard about it in between. A name that is not in a directory listed in this way is reported as missing (ENOENT), in any other directory as an I/O error.", "quantifier": "every history of requests, replies, backend behaviours and restarts, every path of any depth, every buffer size that holds an entry", "why_tests_cant": "Whether the complete mark is still there depends on every request since the listing, including those for the parent directory.", "anchors": ["src/fs.cpp:Filesystem::opendir", "src/fs.cpp:Filesystem::readdir", "src/fs.cpp:Filesystem::lookup", "src/cache/cache.cpp:TransactionImpl::emplace", "src/cache/cache.cpp:TransactionImpl::update_flags"]}
{"id": "C72", "title": "A mount only reads from its backend", "statement": "Whatever requests the kernel makes and however the backend answers or changes, the mount makes only reading calls on the backend (lstat, readlink, opendir, readdir), only about the path the request names and, for a listing, the entries of it, and it closes every directory it opens before the request ends. Hence a backend that is not changed by reading is never changed by the mount. The operations that are not implemented (open, read, write, create, mkdir, unlink, rename, setattr, extended attributes, locks ...) are answered once, with ENOSYS, and change nothing.", "quantifier": "every backend with a state of its own, every sequence of requests, answers and outside changes", "why_tests_cant": "A test sees the calls of the requests it makes on the backend it has; leaks show only in long histories and on error paths.", "anchors": ["src/fs.cpp:Filesystem::opendir", "src/fs.cpp:Filesystem::lookup", "src/fs.cpp:Filesystem::readlink", "include/dragonstash/backend/base.hpp", "include/dragonstash/fuse/interface.hpp:Session", "src/fuse/interface.cpp"]}
{"id": "C73", "title": "Damage to the cache database is contained", "statement": "If records of the cache database were altered, cut off, lost or written by another version, opening, reading and changing it end with a result: an object whose record cannot be read gives an error (ENOENT if it is gone, EINVAL or EIO if it is unreadable), never the data of something else, and all other objects are answered as before. lookup finds a name exactly if its entry and those before it in the same directory are readable; listing and path() say EIO / an error at the damaged place; no assertion fails, no exception is thrown and no call runs for ever.", "quantifier": "every contents of the database tables, every inode number, name and position", "why_tests_cant": "Damage can be any bytes in any record, and its effect depends on where the record lies in key order among all others.", "anchors": ["src/cache/cache.cpp:CacheTransactionRO::lookup", "src/cache/cache.cpp:CacheTransactionRO::readdir", "src/cache/cache.cpp:CacheTransactionRO::path", "src/cache/cache.cpp:CacheTransactionRO::getattr", "src/cache/cache.cpp:CacheTransactionRW::emplace", "src/cache/cache.cpp:Cache::Cache", "src/cache/inode.cpp:Inode::parse", "src/cache/direntry.cpp:DirEntry::parse", "src/cache/cache.cpp:CacheTransactionRW::make_orphan", "src/cache/cache.cpp:CacheTransactionRW::clean_orphans"]}
{"id": "C74", "title": "What is on disk is what the file system answers from", "statement": "The replies of a mounted file system are determined by the requests and the answers of the backend alone: serialising every record into the database file and parsing it again, the uninitialised padding in the records, commits and restarts in between make no difference to any reply. After every history of requests the database file contains well-formed records only, so no assertion about their format fails in any later request. On a database that was damaged from outside, a getattr is always answered, and a lookup fails an assertion exactly if the search for the name meets an unreadable entry.", "quantifier": "every sequence of requests and restarts, every backend, every padding, and for the last part every contents of the tables", "why_tests_cant": "A test compares the replies of the few histories it plays, with the padding the compiler happens to leave.", "anchors": ["src/fs.cpp", "src/cache/cache.cpp", "src/cache/inode.cpp", "src/cache/direntry.cpp"]}
{"id": "C75", "title": "No operation reads database memory that an update has invalidated", "statement": "LMDB returns pointers into its pages that hold only until the next update of the transaction. The result of every operation on the cache and everything it writes are the same whatever such memory shows after the update: each name, number, mode and key taken from the database is used before the next update or copied. This holds on every database whose inode records have the length of an inode, and so after every history of operations, commits, aborts and crashes.", "quantifier": "every operation, every database with inode records of the right length, every history, and every contents of invalidated memory", "why_tests_cant": "Memory that is invalid usually still shows the old bytes: a test passes until a page happens to be rearranged.", "anchors": ["src/cache/cache.cpp: CacheTransactionRW::make_orphan, emplace, unlink, clean_orphans, writelink, update_flags, start_dir_rewrite, allocate_next_inode"]}
{"id": "C76", "title": "Local backend: a directory object lists the directory it was opened on", "statement": "Each object returned by opendir of the local backend returns the entries of the directory it was opened on, in the order the operating system gives them, each once, with its name, its inode number and the type part of its mode (or 0 if the system does not tell the type), and then the end, whatever is done with other objects; fsyncdir syncs that directory; an error while reading is reported; after closedir() and destruction no stream of the object is left open and no other one was closed. No call on a living object is undefined behaviour.", "quantifier": "all histories of opening, reading, syncing, closing and destroying any number of directory objects, all contents of directories, all changes made by other processes, all errors of the operating system, all choices of the pointers of streams", "why_tests_cant": "The outcome depends on which pointer the C library gives to a new stream, on which calls fail and on the interleaving of several objects; tests see one of infinitely many histories.", "anchors": ["src/backend/local.cpp: LocalDir::readdir, LocalDir::fsyncdir, LocalDir::closedir, LocalDir::~LocalDir, LocalFilesystem::opendir"]}
{"id": "C77", "title": "End to end: a mount on the local backend uses its directory objects properly", "statement": "In every session of a mount on the local backend, no request uses a directory stream that is closed or a directory object that is gone, even though the object itself would allow it (C76); when a request has ended, with a reply or with an exception, it has closed every stream it opened and no other one. A listing asks the system for the entries of the directory behind the path: it reads them in order, each once, and all of them if reading does not fail and the request gets to its end.", "quantifier": "all requests in all states of the cache, all histories of requests, all directories, all errors of the operating system, all choices of stream pointers, all changes by other processes between any two calls", "why_tests_cant": "A stream that is leaked or closed twice depends on which of the calls of a handler fails or throws, on which pointer the C library hands out next and on how often it happens in the life of the mount.", "anchors": ["src/fs.cpp: Filesystem::opendir, Filesystem::lookup, Filesystem::readlink", "src/backend/local.cpp: LocalFilesystem::opendir, LocalDir"]}
{"id": "C78", "title": "Concurrent requests on a backend that changes: linearizable, and one request at a time", "statement": "The backend is a program with a state of its own that answers one call after the other and may be changed by others at any time. Whatever the schedule of concurrent requests, the calls, replies and the contents of the cache are those of an object that handles each request at one moment between its call and its reply, with the answers the backend gave to this request. The requests take turns at the backend: between two of the calls lstat, readlink, opendir and readdir of one request no other request makes one. A request asks only about the path its inode has in the committed cache during all of its calls: lookup for one entry of it, readlink for itself, opendir for itself and then for each entry the backend lists. (The directory object of a listing is closed only after the reply to opendir; this call alone may fall between the calls of others.)", "quantifier": "all schedules of any number of threads, all backends (nondeterministic, with any state), all changes of it from outside between any two steps, all moments at which the process is killed", "why_tests_cant": "Races between requests at the backend depend on the scheduling of threads between single operations; a test sees a few schedules.", "anchors": ["src/fs.cpp: Filesystem::lookup, Filesystem::readlink, Filesystem::opendir", "src/cache/cache.cpp: begin_rw, CacheTransactionRW, TransactionHook", "include/dragonstash/backend/base.hpp: Filesystem, Dir", "src/main.cpp: main (multi-threaded loop)"]}
{"id": "C79", "title": "Concurrent requests leak no directory streams of the local backend", "statement": "Whatever the schedule of concurrent requests on the local backend, no call on a directory object is undefined behaviour, at any moment there are at most as many directory objects as requests in progress (counting a request until its handler has returned), and whenever no request is in progress exactly the streams that were open at the start are open.", "quantifier": "all schedules of any number of threads, all directories, all errors and stream pointers of the operating system, all changes by other processes between any two steps, until the process is killed", "why_tests_cant": "Directories are closed after the reply and outside of every lock, so objects of several requests overlap; which pointers the C library hands out and when threads run cannot be enumerated by tests.", "anchors": ["src/fs.cpp: Filesystem::opendir", "src/backend/local.cpp: LocalFilesystem::opendir, LocalDir", "src/main.cpp: main (multi-threaded loop)"]}
{"id": "C80", "title": "A legal kernel's concurrent requests on a changing backend are safe and end", "statement": "The backend answers call after call and may change at any time. As long as there are requests, some thread can go on, or waits for the backend's answer, or has hit an exception; without new requests the threads come to an end unless a directory goes on listing entries for ever. With a kernel that asks only about what it holds no thread ever hits an exception, an assertion or an endless loop; the database is that of a history of the same requests handled one after the other, with the same replies; whatever the kernel holds is in the database; once all requests are answered the cache holds the kernel's references, and exactly these without readdirplus; and the backend is asked only about the path that leads, name by name, to the inode of the request. Every reply is the only one to a request made before it; if the threads run until none can go on, and the backend answers, every request has been replied to.", "quantifier": "all schedules of any number of threads, all backends (nondeterministic, with any state) and changes of them, all legal kernels, all moments at which the process is killed", "why_tests_cant": "Deadlocks and lost references depend on the order of single operations of several threads and of changes of the backend; a test sees a few schedules.", "anchors": ["src/fs.cpp: Filesystem::lookup, forget, readlink, opendir, readdir, readdirplus", "src/cache/cache.cpp: begin_rw, begin_ro, CacheTransactionRW, TransactionHook", "include/dragonstash/backend/base.hpp: Filesystem, Dir", "src/main.cpp: main (multi-threaded loop)"]}
{"id": "C81", "title": "A concurrent request is answered with what the backend told this request", "statement": "Whatever other requests and others do to the cache and to the backend at the same time: a lookup for which the backend's lstat succeeded is answered with exactly these attributes (or with the error of storing the entry); if lstat failed, and not because the backend is not reachable, with this error. readlink is answered with the target the backend gave (up to the first NUL) or with its error. opendir is answered with its error, or succeeds, and only after the backend has reported the end of the directory (or an error of readdir). A request makes one call of lstat, readlink or opendir, and is not answered before it has made it, except for an error because its inode has no path.", "quantifier": "all schedules of any number of threads, all starting states, all backends and changes of them, all requests", "why_tests_cant": "Answers mixed up between concurrent requests show only under certain schedules.", "anchors": ["src/fs.cpp: Filesystem::lookup, Filesystem::readlink, Filesystem::opendir", "include/dragonstash/backend/base.hpp: Filesystem, Dir", "src/main.cpp: main (multi-threaded loop)"]}
{"id": "C82", "title": "FS: asking again changes nothing on disk", "statement": "If a lookup, getattr, readlink, opendir, readdir, readdirplus or releasedir is made again while the backend answers what it answered before, and nobody else has changed the cache database in between, the database stays exactly as it is: no inode gets a new number, no counter advances, nothing is dropped, however often the request is repeated, whatever else is only read in between, and whatever references the kernel took or gave back. For opendir this holds if the backend does not list one name twice. Getattr, readdir, readdirplus and releasedir never change it at all. A lookup, getattr, readlink, opendir or readdir that was answered without an error is answered the same again.", "quantifier": "all histories of legal requests incl. restarts, all backends, all requests but forget and the opening of the cache, any number of repetitions, all reference counts", "why_tests_cant": "A leak or a renumbering on repetition depends on the contents of the database and the answers, and shows only after arbitrary histories.", "anchors": ["src/fs.cpp: Filesystem::lookup, Filesystem::readlink, Filesystem::opendir", "src/cache/cache.cpp: TransactionRW::emplace, unlink, writelink, start_dir_rewrite, finish_dir_rewrite, update_flags"]}
{"id": "C83", "title": "FS: what was removed does not stay in the cache", "statement": "Everything in the cache database has a path, or is reached from something that is held by a reference: a removed inode does not stay longer than it is needed. After the cache was opened everything in it has a path. Only a forget and an opendir can leave something behind that is neither; it is gone as soon as a lookup finds something that was not in the cache, or finds that what it looked for is gone, or a symbolic link turns out not to be readable any more, or the cache is opened again. No other request leaves anything behind.", "quantifier": "all histories of legal requests incl. restarts, all backends, all reference counts", "why_tests_cant": "Whether something is left behind depends on the order of removals, references and listings over the whole history.", "anchors": ["src/fs.cpp: Filesystem::lookup, Filesystem::forget, Filesystem::readlink, Filesystem::opendir", "src/cache/cache.cpp: TransactionRW::make_orphan, clean_orphans, emplace, unlink, finish_dir_rewrite; Cache::Cache"]}
{"id": "C84", "title": "FS: a path keeps its inode number, and no two paths share one", "statement": "Two lookups of the same path reply the same inode number and the same file type, whatever was requested in between and however often the daemon was restarted, unless the backend said in between that some component of the path is not there or is of another type. Two lookups that reply the same inode number were of the same path: a number never passes from one path to another, and no inode has two names. Once the backend said that a file, or a directory on the way to it, is gone, its number is never replied again; if the path comes back it has another number.", "quantifier": "all histories of legal requests incl. restarts, all backends, all paths and both positions of the two lookups in the history", "why_tests_cant": "Numbers are handed out over the life of the database; whether one changes or is reused depends on every removal, listing and restart in between.", "anchors": ["src/fs.cpp: Filesystem::lookup, Filesystem::opendir, Filesystem::readlink", "src/cache/cache.cpp: TransactionRW::emplace, unlink, make_orphan"]}
