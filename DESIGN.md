# Formal model of keengo99/kasync in Rocq (Coq 8.16.1)

## Layout

* `rocq/theories/<Area>Model.v` – executable Gallina model of the C functions, each definition
  citing file:lines of /repo and saying what it simplifies. No proofs, no properties.
* `rocq/theories/<Area>Spec.v` (or the top of the Props file when it is only a few lines) – the small
  specification the theorem statements refer to.
* `rocq/theories/<Area>Proof*.v` – invariants, refinement lemmas.
* `rocq/theories/<Area>Props*.v` – the property theorems, and `Example`s showing that concrete,
  non-trivial cases meet the hypotheses.
* `rocq/theories/Lts.v`, `Count.v` – shared transition-system and counting lemmas.
* `seeded/LOG.jsonl` – every wrong-program experiment: edit, broken claim, theorems that failed,
  theorems that were tightened because they had survived.
* `tools/` – scripts that write properties.jsonl and MANIFEST.json.

## Conventions

* UB / failed `assert` / NULL dereference / use after free are distinct outcomes (`None`, `UB`,
  `Crash`, `Stuck`) – never silently totalised.  "The operation is safe" is part of every refinement theorem.
* C `int`, `int64_t`, `size_t` are unbounded `Z`/`nat` unless the property is about overflow;
  where wrap-around matters (`rbtree_int_cmp`, `ksocket_addr_compare`, pool alignment arithmetic,
  selector index, timeout in seconds * 1000, spin lock words) the wrap is written explicitly.
* Critical sections protected by a `kmutex` are one atomic step; everything between two critical
  sections is separately interleavable.  Lock-free code (`krw_mutex`, eventfd notice queue, `kcond`)
  is modelled per load / CAS / push / write step, under sequential consistency.
* Loops are structural recursions or fuelled functions with an explicit `OutOfFuel` result that
  the theorems exclude.
* Concurrent models are labelled transition systems (`Lts.v`): `step s e` = `Disabled` (the scheduler
  may not choose this event now), `Crash`, or `Ok s' obs`.  Theorems quantify over all event lists
  (schedules).  The kernel, malloc failure, thread-start failure, peers are events or oracle arguments.
* Claims the unchanged code violates are stated as `..._refuted` with a concrete witness, and next to
  it the strongest true variant is proved (suffix `_partial` if it is weaker than the claim).

## Per property: what is modelled, how it is proved

| id | what is modelled | how it is proved |
|----|------------------|------------------|
| C01–C04 | pointer-level heap of `krb_node` (parent, colour, left, right, data), every function of krbtree.c used by insert/remove/find/navigate (`Rb*.v`) | refinement of the heap code to zippers over functional trees; functional lemmas for order/contents/balance; histories by induction |
| C05 | 32-bit wrap of `*k1-*k2` (`RbIntCmp.v`) | `_refuted` witness; exact characterisation when no overflow |
| C06–C08 | krw_buffer with chunk list, read offset, write offset (`Kbuf*.v`) | abstraction to a byte list; induction over op list; krw_read, krw_insert `_refuted` |
| C09–C10 | ks_buffer, kbuf_seek, kgl_iovec_seek (`Ks*`, `Kbuf*`) | refinement to byte lists, arithmetic of kgl_align |
| C11–C13, C51 | kfiber_mutex critical sections as atomic steps of a system of fibers (`Fmutex*`, `FfairProps`) | inductive invariant over all schedules; lock2, set_limit, fairness `_refuted` (infinite schedule) |
| C14–C16 | kfiber_rwlock likewise; C16 with synchronous resume (`Frwlock*`) | inductive invariant; C16 `_refuted` |
| C17–C19 | kfiber_cond auto/manual (`Fcond*`) | invariants over histories; C19 `_refuted` + partial |
| C20–C22 | kfiber_chan (`Fchan*`) | history invariant on tagged messages; C22 `_refuted` (LIFO proved) |
| C23–C24 | fiber switch stack, ref counts, close_cond, join (`Fswitch*`, `Flife*`) | inductive invariants |
| C25–C27 | block queue: pointer-level timer tree + chains, clock (`Timer*`) | refinement, reusing C01–C03; histories of passes; C26 `_refuted` (exact order proved) |
| C28–C29 | selector lists, read timeout, adjust_time (`SelList*`) | inductive invariant; pointer level of lists is C38 |
| C30–C31 | notice list + eventfd counter, per-step interleaving (`Notice*`) | inductive invariant; C31 `_refuted` |
| C32–C34 | kasync_worker critical sections + worker threads (`Worker*`) | inductive invariant; C34 `_refuted`, bound max_queue+1 proved |
| C35–C37 | pool addresses as Z in an arena of blocks, large blocks, cleanups, arrays (`Pool*`) | invariant: disjointness, ghost contents; `_refuted` for unaligned pool sizes and 0-capacity arrays |
| C38, C52 | heap of prev/next pointers (`Klist*`) | separation-style list predicate, footprint theorem |
| C39–C42 | loops over oracle-driven partial I/O; TLS vectors; direct-I/O arithmetic over an abstract file (`Io*`) | induction on oracle/remaining length; EOF assertion `_refuted` |
| C43, C53 | kgl_pow2, get_perfect_selector, index wrap-around, growing, timeouts (`SelMgr*`) | arithmetic, cyclic argument |
| C44 | comparison and hash functions with wrap (`Addr*`) | case analysis, arithmetic; `_refuted` |
| C45 | krw_mutex / spin lock per instruction (`Spin*`) | inductive invariant over all interleavings |
| C46 | kcond per pthread step, spurious wakeups (`Kcond*`) | inductive invariant; `_refuted` |
| C47 | kaddr cache + worker + refs (`Dns*`) | inductive invariant; two races `_refuted` |
| C48 | reference counts of kserver, posted ssl_ctx updates, close (`Server*`) | inductive invariant; `_refuted` |
| C49 | epoll selectable flags machine, READY list, kernel event set (`Epoll*`) | inductive invariant; `_refuted` outside the caller's duties |
| C50 | kthread pool (`Thread*`) | inductive invariant |
| C54 | kgl_ssl_ctx_set_protocols over byte strings (`SslOpt*`) | parser correctness by induction |
| C55 | kconnection TLS handshake/shutdown over an oracle SSL (`SslHs*`) | inductive invariant; timeouts `_refuted` |
| C56 | blocking fiber network calls over the selector (`Fnet*`) | inductive invariant relating schedule, suspended fibers and registrations |
| C57 | io_uring backend: rings, slots, READY list, sendfile pipes (`Uring*`) | inductive invariant relating history, ring contents and slots; five `_refuted` |
| C58 | kfiber_thread_call with pool and notice queue as oracles (`Fcall*`) | token invariant: every open call has exactly one job, running thread or notice |
| C59 | TLS over memory BIOs (ENABLE_KSSL_BIO): BIO read/write, the socket requests, ready list and callbacks of one connection on the krw buffer model of C06-C10; engine and kernel are oracles (`SslBio*`) | invariant: unsent = output buffer, uneaten = input buffer, iovecs given to the kernel still point to the next unsent bytes although the engine goes on writing, one token per open request. Partial: assertions hold only if the engine writes nothing while an empty write is queued and no error event comes then (`C59_alert_refuted`, `C59_err_refuted`); engine output with no write open is not sent (`C59_engine_output_refuted`); read loop after end of stream (`C59_eof_refuted`) |
| C60 | `rb_replace_node` and `rbtree_find2` on the heap of C01 (`RbReplace.v`); the caller allocates the new node and frees the old one | zipper frame lemmas; the invariant of C01 holds again for the renamed list, so all further histories are covered |
| C61 | one socket on the kqueue selector: flags, EVFILT_READ/WRITE filters in EV_CLEAR mode, the ready loop with its stale flag copy, close (`Kq*`) | inductive invariants (`inv`: flags/token counts; `inv2`: no lost edge); a turn of the loop is run symbolically. Partial: needs the caller rules `normal`, progress needs kevent changes accepted; seven `_refuted` |
| C62 | listening socket on epoll/kqueue: accept, listen, kselector_event_accept, edge reports, ready loop, close notice (`Accept*`), backend as a parameter | inductive invariant (waiting request token; empty-seen-or-edge-pending; arrivals = delivered ++ backlog ++ lost); partial only for the kqueue close/destroy race (`_refuted`) |
| C63 | kqueue notice stack with explicit heap, the one-bit EVFILT_USER trigger, READY membership, the walk of a detached batch (`KqNotice*`) | inductive invariant (batches/queued/rest decomposition of the history; queue non-empty → trigger, ready, or a thread about to trigger) |
| C64 | file handles, iocbs in flight, completion ring, eventfd counter, result_aio_event loop, fibers and buffers (`Aio*`) | inductive invariant relating history, in-flight operations, ring and suspended fibers; bounded drain for the return theorem; four `_refuted` |
| C65 | byte-addressed memory over an arbitrary C library allocator, bucket table and the two delay lists, threads inside malloc/realloc, sweeper, leak listing (`DbgAlloc*`) | the specification computes blocks and bytes from the history of calls and writes; separation invariant (every C library block has one owner, blocks disjoint) by induction on the run, effect lemma per step, frame lemma; five `_refuted` |
| C66 | objects with both directions' flags and callbacks, list membership, operations in flight, completion queue, blocks of next, READY loop program counter, accept loop (`Iocp*`) | normalised transition relation; holder invariant (each open request is held by exactly one flag, queue entry or accept loop), list, value, kernel-count, socket and FIFO invariants; measure for coming to rest; three `_refuted` |
| C67 | headers, blocks of bytes and 32 bit counters; one step per atomic access and per free; references as permissions held by threads (`KstrModel`) | invariant: counter = references held + releases before their decrement, exactly one freeing thread when 0; induction on the run; four `_refuted` |
| C68 | program threads and selector threads as a transition system; the two callback lists with separate read and write of the head; per selector a queue of notices, a set of timers, the phase of its thread (`SmgrModel`) | invariant: registered = called + listed + queued (as multisets), log of a thread = init part ++ middle ++ exit part; induction on the run; six `_refuted` |
| C69 | the flags kfopen passes per mode for both systems; a file system with named files, handles with positions and rights, short counts and errors as oracle; kfread_all as a loop of steps of a thread (`FileModel`) | invariant tying rights of handles to their mode; induction on the run for appending and for kfread_all (every byte of the buffer seen at its place); case analysis for the portability; six `_refuted` |
| C70 | each function as a tree of system calls, answered by an adversary; threads interleaved call by call; descriptors with owner and state (`SockModel`) | weakest precondition of each tree (induction for the options), then an invariant of the interleaving; four `_refuted` |
| C71 | connections with their resources, each resource a number never reused; giving back what is not in use, using a destroyed connection, a failing assertion and reading outside an object are crashes (`ConnModel`) | invariant: what a connection's fields name is exactly what was made for it; counting of references; three `_refuted` |
| C72 | handles with the request in them, the worker queue, workers, messages to the selectors, program fibers and helper fibers (`WfModel`); a specification over the history of calls and system calls (`WfSpec`) | invariant tying every job and message to the one suspended call of its handle; measure for progress; five `_refuted` |
| C73 | a state monad over reference-counted certificates, stacks, keys, BIOs, digests, files and the context, with an oracle that fails any call (`CertModel`); texts as lists of PEM blocks, ownership as counts (`CertSpec`) | Hoare-style lemmas per function with ownership sets; six `_refuted` |
| C74 | the two callbacks, OpenSSL's order of calling them per ClientHello, SSL_select_next_proto byte by byte (`SniModel`) | invariant over the log of callback calls; induction over wire-format lists; two `_refuted` on callbacks that give no object |
| C75 | jump_fcontext, make_fcontext, trampoline and finish instruction by instruction over 16 registers and a byte memory; update_fcontext, __kfiber_switch, fiber_start, kfiber_new around them; user code is an arbitrary change of registers and memory (`FctxModel`) | symbolic execution of the two routines (`jump_exec`, `make_exec`), invariant: the frame of every fiber that is not running lies at its context inside its own stack and holds what it had; traces |
| C76 | kernel queue, edge-triggered readiness or io_uring poll, READY list, recvmsg with scatter, address and control message over byte lists (`UdpModel`) | invariant: arrived = delivered ++ queued, contents of every completed read; progress invariant relating readiness, READY list and edge |
| C77 | one file with flags, list membership, aiocb, kevent, the fiber's call, contents and history; Darwin's worker variant (`KaioModel`) | two invariants: call/aiocb/event/history in every run; flags and lists when no submission fails or all calls are of one kind |
| C78 | jump_fcontext, make_fcontext and finish instruction by instruction over x0-x30, d0-d31, sp, FPCR and a byte memory, with the SP alignment check; the C code around them as in C75; user code arbitrary (`Fa64Model`) | symbolic execution of both routines; invariant: every sleeping fiber's frame holds what it had, stacks are disjoint |
| C79 | submission ring with capacity, operations in the kernel, completion ring, the selector's program counter, STF_READ of the notice selectable, life of the stack frame the timespec is in, the notice queue of C30; the kernel as adversary (`UlpModel`) | invariant: the polls of the eventfd in the ring, in the kernel and completed number 1 or 0 as STF_READ says, a completed poll means a readable eventfd; continuation built by induction over the completions; counterexample runs by computation plus an invariant that nothing runs any more |
| C80 | the worker pool of C32–C34 plus two steps that overwrite the limits (the function takes no lock) (`WsetModel`) | the invariant of C32–C34 generalised over bounds of the limits; induction on the run |
| C81 | state machine of listeners (posted, armed, in the callback), the loop of kserver_open, posted callbacks, close; the environment chooses results and order (`SrvModel`) | invariants by induction on the run; a credit per listener after close |
| C82 | the word as an integer with the masks ~3 and ~1 converted to uintptr_t; programs as trees of accesses over arbitrary other state; specification with two fields (`RbPackModel`) | bit lemmas; simulation by induction on the program, in both directions |
| C83 | keys as addresses of char pointers in a byte memory; the comparison loop; dictionary order by common prefix as specification (`RbStrModel`) | induction on the strings; instance of C01 for the tree |
| C84 | the __sync builtins and the Interlocked functions as steps on a w-bit value; histories as sequences of operations of threads (`AtomModel`) | modular arithmetic; induction on the history |
| C85 | the list of the ticks, the allocated ones, where the loop is and what it has saved (`TickModel`) | invariant (the saved tick is freed or in the list); induction on the events of a round with the list of those still to be called |
| C86 | the tables as finite maps per bucket, the hook's calls; the C runtime as an independent relation; strings in buffers with uninitialised bytes (`DbgWinModel`) | invariant of table and live blocks by induction on the history; induction on the strings |
| C87 | rb_augment_path/insert/erase_begin/erase_end over the tree model of C01, summaries as a function on addresses, the caller's function a parameter (`RbAugModel`) | rebalancing after an insertion leaves wrong summaries only at the node, its children, its ancestors and their other children (`RbAugIns`), after a removal only at the node rb_augment_erase_begin returns, its ancestors and their other children (`RbAugErase`, `RbAugRemove`), both following the proofs of C01; the path repairs these (`RbAugPath`, `RbAugDel`); induction on the calls |
| C88 | the four functions over the buffer models of C06 and C09; the C library's snprintf is modelled (text cut to size-1 bytes, length uncut) (`KintModel`) | digits by induction, length bound from the range of the type; then the queue invariant of C06 |

(Rows for later properties are appended as the model grows.)

## Modelled and not modelled, per source file

| file | modelled | not modelled |
|------|----------|--------------|
| src/krbtree.c, include/krbtree.h | insert, remove, rotations, colour fix-ups, find, find2, rb_replace_node, first/last/next/prev, iterator, find_cover, int cmp, string cmps (C83); the colour bit in the parent pointer (C82); rb_augment_* (C87) | – |
| src/kbuf.c, include/kbuf.h | krw_* reading/writing/insert/append, integers as text (C88), ks_*, kbuf_seek, kgl_iovec_seek | int overflow of sizes; malloc failure |
| include/klist.h | all macros | – |
| src/kmalloc.c, include/kmalloc.h | pools, arrays, cleanups, pfree, reset | xmalloc replacements; kgl_pagesize initialisation |
| src/kmalloc_debug.c | malloc, calloc, realloc, free, start_hook_alloc, memory_debug_thread, dump_memory_leak (C65) | backtraces, kgl_memalign, memory of the list nodes |
| src/kmalloc_debug_win32.c | the hook, the tables, the report, strapp, removal of quotation marks (C86) | stack traces, symbols, text of the report |
| src/kfiber.c, include/kfiber.h, kfiber_internal.h | switch stack, create/exit/join/ref, context switch and stack allocation with fcontext on x86-64 (C75) and arm64 (C78), net read/write/connect/getaddr/msleep, full loops, sendfile loop | guard pages (KFIBER_PROTECTED), ucontext and Windows fibers |
| src/kfiber_sync.c, include/kfiber_sync.h | mutex, rwlock, cond, chan | – |
| src/kselector.c, include/kselector.h, kselectable.h | timers, lists, timeouts, adjust_time, READY list, ticks (C85) | read-only statistics |
| src/kselectable.c | read/write/next/readhup events (C49, C57), TLS vectors (C41), memory-BIO paths (C59), UDP receive (C76) | IOCP branch |
| src/kepoll_selector.c, include/kepoll_selector.h | read, write, readhup, remove, connect, listen, accept (C62), select loop, notices, Linux AIO (C64) | aio_open error paths |
| src/kiouring_selector.c | read, write, connect, accept (as one operation), aio, sendfile, completion handling (C57); select loop, timeouts, ring submission, notices (C79) | release of the ring and the eventfd |
| src/kselector_manager.c | selector choice, growing, timeouts; start-up, registration and shutdown (C68) | reading the number of processors |
| include/kstring.h, katom.h | reference counted strings, their atomic counters (C67); all of katom.h (C84) | memory ordering |
| src/kasync_worker.c, src/kthread.c | all, with limit changes (C80) | – |
| src/kaddr.c | find, refresh, answers, flush | getaddrinfo itself |
| src/kserver.c | open/close/accept/refs/ssl_ctx (C48), open loop, accept callback and its thread (C81) | socket options |
| src/kconnection.c, src/kudp.c | TLS handshake, shutdown, session; creation, ownership and destruction (C71); UDP receive and recvaddr (C76) | UDP send, multicast |
| src/kgl_ssl.c | protocols, writev/readv loops, certificates and contexts (C73), SNI and ALPN callbacks (C74) | ciphers, ECDH curves, early-data limits |
| include/ksocket.h, src/ksocket.c | address compare / hash; listen, udp, accept, connect, half_connect, close (C70) | Windows branches, getaddrinfo wrappers, option setters |
| include/ksync.h | kcond, krw_mutex, spin locks | pthread mutex itself |
| src/kasync_file.c, include/kasync_file.h, kfile.* | direct-I/O window, full loops; modes, positions, kfread_all (C69); worker backend and safe calls (C72) | symbolic links, O_DSYNC/O_NOATIME, kfile_last_modified |
| src/kssl_bio.c, include/kssl_bio.h | all of it, on top of the krw buffer model (C59); the TLS engine is an oracle | allocation failure |
| kkqueue_selector.c | add_event, read, write, sendfile, connect, select, remove (C61), listen, accept (C62), notices (C63), POSIX AIO files (C77) | – |
| kiocp_selector.c | read/write/recvmsg/sendfile/connect/accept/aio/next/select, with kselector_check_timeout's lists (C66) | bind, loading of extension functions, notice (kiocp has none), SSL over IOCP |

Also not modelled anywhere: the kernel (it is an adversary that may return any result allowed by
its interface), OpenSSL, the C compiler, and weak memory (sequential consistency is assumed).
malloc returns fresh disjoint memory and, unless a theorem says otherwise, does not fail.

## Trusted base

* The Coq 8.16.1 kernel (`coqc`; `coqchk` is run by vcheck), the standard library and std++ as installed here.
* The reading of the C source into the models (each definition cites its source lines).
* `Print Assumptions`: for **every** theorem named in MANIFEST.json the answer is
  "Closed under the global context": no axiom is used by any theorem. (Checked with the
  script in `tools/assumptions.sh`; re-run after each milestone.)
* vcheck lists seven "library axioms" of the module `Coq.ssr.ssrunder` (`Under_rel.*`, opaque fields of
  the standard library's `under` tactic). They come with std++'s import of `Coq.ssr`; they belong to the
  standard library and no theorem depends on them.
* No axioms, no `Admitted`, no functors or module types, no section-less `Variable`, no kernel check switched off.
  The few `Section`s only abstract parameters (`Context`) that are universally quantified in the closed statements.

## Findings (claims the unchanged code violates, with the theorem that exhibits them)

* C05 integer comparator overflows; C44 IPv4 compare overflows (not antisymmetric, cyclic); the C++ hash uses ignored bytes.
* C07 krw_read stops at an empty chunk; C08 krw_insert on a partly read chunk.
* C12 raising the limit leaves a waiter; C13 lock2 is not counted; C51 waiters are a stack: starvation.
* C16 wunlock resumes a reader under its own lock; C19 wait value lost when the notice comes first; C22 channel is LIFO.
* C24 join2 after exit reports 0; two ref_self handles.
* C26 timers of equal deadline fire newest first; C27/C28 clock steps within one second; C31 notices newest first.
* C32 failed thread start: undefined behaviour; C34 queue holds max_queue+1.
* C35 pool size not a multiple of 8: allocation behind the pool; C37 array of capacity 0.
* C40 trailing empty iovec; C41 early-data error reported as 0; C42 direct read at EOF aborts.
* C43 assertion reachable under load changes; C53 grown selectors ignore timeouts, seconds*1000 overflows.
* C46 kcond: two releases per notice, lost notice, manual reset cleared by wait, spurious wakeups.
* C47 refresh finishing while pending again; answers handed out without own reference; canonical name never requested.
* C48 ssl_ctx update after the listener was destroyed; close of a reused descriptor.
* C49 epoll_ctl failure leaves the flag, next_read/next_write rules, read timeout gives two callbacks, late or dropped readhup, half close, stale READY entry.
* C50 foreign SIGUSR2 frees a listed thread; negative minimum.
* C52 kforward_list_append prepends.
* C55/C56 a read timeout leaves the read registered: assertion, use after free, wrong buffer.
* C57 pipe2 failure resubmits a stale entry, second entry failure leaves the file splice running, stale NULL-buffer mark makes sendfile report 0, NULL entry in select, file errors hidden.
* C59 alert while an empty write is queued: assertion; STF_WREADY2 left set on the error path (next write asserts; with NDEBUG its ciphertext is dropped); engine output with no write open never sent; busy read loop after end of stream.
* C61 a failed kevent leaves STF_REV/STF_WEV set: a later read is never registered (hangs), a connect retry asserts; a failed sendfile registration leaves STF_SENDFILE: the next plain write takes its buffer for a file; sendfile failing with 0 bytes loops in the ready loop for ever (infinite recursion from a fiber); a refused connect is reported as success; read timeout calls back without clearing STF_READ; after next_read on a never registered socket the next read asserts.
* Read but not modelled: timeouts `tmo*1000000` overflow int (kqueue, io_uring); kqueue remove skips the WRITE delete when the READ delete fails; kgl_pagesize never initialised; selectable_recvmsg dereferences c->udp before its NULL check; ksocket_is_block is inverted; kconnection_new copies 110 bytes out of a 28 byte accept_addr for PF_UNIX; kserver accept error destroys the listener; kfiber_file_safe_read returns 0 when the fiber cannot be created; kgl_ssl_ctx_new_server2 dereferences a NULL cert_buffer; early-data want-read is reported as 0 (looks like end of file).
* C62 kqueue: kserver_close puts a listener without a waiting accept into the ready list; destroying it before the loop gets there is a use after free. Two accepts at a time: the first caller is forgotten.
* C63 a failed NOTE_TRIGGER is only printed: the posted callback waits until somebody else posts.
* C64 with assertions on, a direct-I/O read at end of file or an I/O error aborts the process (assert(got > direct_io_offset)); two fibers on one handle: the first is never woken; with 64 KiB blocks the (int16_t) gap is negative and another place of the file is read; kfiber_file_read_full cannot work with direct I/O (unaligned buf after a short read, data at buf+gap); the io_uring backend ignores the arg of aio_read/aio_write.
* C65 dump_memory_leak turns the hook off for all threads: a concurrent realloc of a guarded block calls __libc_realloc on a pointer 8 bytes inside a block, and a concurrent free frees the record the listing stands on (it drops the lock between records); calloc does not check n*size for overflow; malloc(SIZE_MAX-7) wraps in size+16 and writes out of bounds; malloc(0) returns NULL.
* C66 iocp_selector_next frees the block and forgets the callback when the post fails; iocp_selector_accept loops without end in the selector thread when WSASocket/AcceptEx fail (e.g. handles exhausted); iocp_selector_recvmsg without c->udp passes the kernel the address of the local addr_len of a function that returns before the datagram arrives.
* C67 kstring_from2(str, len) records len but copies with strndup, which stops at the first 0 byte: for bytes containing a 0 only the part before it is allocated, and a reader that trusts the length reads outside the heap block (`C67_nul_refuted`).
* C68 the on_ready and thread_init lists are pushed without a lock: two threads registering before selector_manager_init lose a callback (`C68_register_race_refuted`); is_selector_manager_init is true before the selectors exist, so a call from another thread meanwhile uses an uninitialised selector (`C68_init_race_refuted`); selector_manager_close takes a selector whose thread has not begun (thread_id 0) for one that is over and frees it (`C68_close_early_refuted`), ignores queued callbacks (`C68_close_loses_refuted`), leaves the freed table in place (`C68_after_close_refuted`) and, without MALLOCDEBUG, waits for ever (`C68_close_hangs`).
* C69 kfile_close_on_exec does nothing on POSIX and reports success, and reports failure when it succeeded on Windows (`C69_inherit_refuted`, `C69_inherit_windows_refuted`); kftime on Windows gives the creation time (`C69_time_windows_refuted`); KFILE_TEMP_MODEL is ignored on POSIX (`C69_temp_refuted`); a kfread interrupted by a signal makes kfread_all fail with the position moved (`C69_interrupt_refuted`).
* C70 ksocket_connect connects on a blocking socket and polls afterwards, so its timeout bounds nothing (`C70_timeout_refuted`); a listener asked for IPv6 only is returned as good when that option could not be set (`C70_option_refuted`); an ordinary file put at a UNIX path between stat and unlink is removed (`C70_unlink_refuted`); without SOCK_CLOEXEC sockets are inherited (`C70_inherit_refuted`). Seen while reading: ksocket_is_block answers the opposite of its name; ksocket_unix_addr leaves a path of 108 bytes or more without terminator.
* C71 accepting a connection on a UNIX server copies 110 bytes from the 32-byte accept_addr at the end of the listener: heap over-read on every accept (`C71_accept_unix_refuted`); a UNIX address given to kconnection_new3/new2 is followed as a wild pointer by kconnection_half_connect (`C71_new3_unix_refuted`); a second kconnection_half_connect loses the first descriptor (`C71_reconnect_refuted`).
* C72 two kfiber_file_safe_read calls from two threads on one handle overwrite each other's request: one fiber is never woken, the other twice (`C72_shared_refuted`); kfiber_file_safe_read returns 0 (= end of file) instead of -1 when the helper fiber cannot be created (`C72_eof_refuted`); kfiber_file_seek does not support seekEnd (`C72_seek_end_refuted`).
* C73 kgl_ssl_certificate never frees the X509 it loaded (`C73_leak_refuted`, `C73_failed_leak_refuted`); kgl_ssl_ctx_new_server2 dereferences a NULL certificate that kgl_ssl_certificate accepts (`C73_null_refuted`); any error with reason 108, whatever its library, ends the chain silently (`C73_truncated_refuted`); an empty password array is read past its end (`C73_empty_passwords_refuted`); a failed session id context is ignored (`C73_no_sid_refuted`); in the client the session id context is 100 bytes long, so setting it always fails.
* C74 an SNI callback that returns a context but no object is asked twice per handshake, and a renegotiated ClientHello with another name switches the context of the running connection (`C74_twice_refuted`, `C74_switch_refuted`).
* C75 with BOOST_CONTEXT_TLS_STACK_PROTECTOR make_fcontext stores the stack guard into its caller's frame (8(%rsp) for 8(%rax); `C75_stack_protector_refuted`); with BOOST_CONTEXT_SHADOW_STACK the SSP blocks are duplicated and no fiber starts (`C75_shadow_stack_refuted`); kfiber_create rounds the stack size down, 8191 gives 4096 bytes (`C75_stack_size_refuted`).
* C76 with io_uring and ENABLE_KSSL_BIO a UDP read completes with POLLIN (1) as its byte count and nothing is received (`C76_uring_bio_refuted`); an EINTR of recvmsg counts as no data and with edge-triggered epoll the read hangs (`C76_interrupted_refuted`); IPV6_RECVPKTINFO is never set, so kudp_get_recvaddr fails on IPv6 (`C76_ipv6_recvaddr_refuted`); before the first read it reads uninitialised memory (`C76_unset_recvaddr_refuted`).
* C77 a failed aio_read/aio_write leaves STF_READ/STF_WRITE set; the next operation of the other kind leaves the file on the RW list and kfiber_file_close frees it there (use after free, `C77_failed_submit_refuted`), or wakes the fiber twice (`C77_woken_twice_refuted`); on macOS (BSD_OS with KF_ASYNC_WORKER) kfiber_file_callback overwrites the worker's result with aio_return of an unknown control block, so every fiber file read/write returns -1 (`C77_darwin_refuted`).
* C78 the arm64 switch does not save FPCR: a rounding mode (or flush-to-zero) set by one fiber leaks into every fiber that is resumed after it (`C78_fpcr_refuted`).
* C79 io_uring: if io_uring_submit fails once with a full ring while the eventfd poll is armed again, or the poll completes once with an error, callbacks posted to that selector never run again (`C79_rearm_refuted`, `C79_poll_error_refuted`, `C79_deaf_forever`); with a full ring select writes through a NULL entry (`C79_null_sqe_refuted`); a timeout entry the kernel did not take at once points into a dead stack frame (`C79_dead_frame_refuted`); timeouts above 2147 ms overflow an int (`C79_timespec_refuted`).
* C80 raising the limit of a worker pool starts no worker for the jobs that already wait (`C80_raise_refuted`, `C80_zero_refuted`): if the job that runs waits for one in the queue, the pool stays deadlocked. kasync_worker_set takes no lock.
* C81 any failed accept(2) (ECONNABORTED, EMFILE, EINTR) and any TLS object that cannot be made destroys the listener for good: with the last one gone the server accepts nothing, still counts as started and cannot be opened again without a close (`C81_accept_error_refuted`); a callback posted to another selector may get a freed kserver_selectable (`C81_listener_alive_refuted`); a kserver_close while kserver_open is in its loop is undone by the next turn (`C81_close_during_open_refuted`). Seen, not modelled: kserver_selectable_destroy clears the fd before kserver_selectable_free, so a unix socket path is never unlinked; kserver_open_exsit leaks the listener and a server reference when listen fails.
* a tick callback which closes the next tick of the list makes kselector_check_timeout go on into freed memory (tick_next_list is saved before the callback, src/kselector.c:272-277).
* strapp with an empty second string (SYSTEMROOT or _NT_SYMBOL_PATH set to nothing) leaves the copy without a terminator and strncat reads on (src/kmalloc_debug_win32.c:98-101); of two adjacent quotation marks one stays in the path (:148-154); failed allocations stay in the report.
