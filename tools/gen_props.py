#!/usr/bin/env python3
# Generates /verif/properties.jsonl (one JSON object per line).
import json
P=[]
def p(id,title,statement,quant,why,anchors):
    P.append(dict(id=id,title=title,statement=statement,quantifier=quant,why_tests_cant=why,anchors=anchors))

p("C01","Ordered-map contents of the red-black tree",
  "After any sequence of rbtree_insert / rbtree_remove calls with a comparator that is a total order, an in-order walk of the tree lists exactly the entries inserted and not yet removed, strictly sorted by key, one entry per key; rbtree_insert returns the already present node with new_flag=0 (tree unchanged) when the key is present and otherwise adds exactly one node; rbtree_find returns the node of the key iff the key is present. No operation of the sequence dereferences NULL or a freed node.",
  "every finite history of insertions and removals, every key set, every heap layout of the nodes",
  "The rebalancing code has dozens of pointer-rewiring cases that depend on the colours and shape reached after an arbitrary history; tests sample some shapes only.",
  ["src/krbtree.c:rb_insert_color","src/krbtree.c:rb_erase","src/krbtree.c:__rb_erase_color","src/krbtree.c:rbtree_insert","src/krbtree.c:rbtree_find","src/krbtree.c:rbtree_remove"])
p("C02","Red-black balance (logarithmic height)",
  "After any history of insertions and removals the tree satisfies the red-black conditions (root black, no red node with a red child, equal black height on all paths), so a search visits at most 2*log2(n+1) nodes.",
  "every history of insertions and removals, every tree size",
  "A rebalancing mistake leaves contents intact and only degrades height on specific histories.",
  ["src/krbtree.c:rb_insert_color","src/krbtree.c:__rb_erase_color","src/krbtree.c:rb_erase"])
p("C03","In-order navigation and iteration",
  "rb_first/rb_last return the least/greatest entry; rb_next/rb_prev return the immediate in-order successor/predecessor or NULL at the ends; rbtree_iterator calls the callback once on every entry in increasing order (until it asks to break), and afterwards exactly the entries for which the callback asked removal are gone.",
  "every well-formed tree, every node in it, every callback decision sequence",
  "Iteration with removal during the walk depends on the successor being computed before the erase and the erase never moving the successor node, for every shape.",
  ["src/krbtree.c:rb_first","src/krbtree.c:rb_last","src/krbtree.c:rb_next","src/krbtree.c:rb_prev","src/krbtree.c:rbtree_iterator"])
p("C04","Cover lookup",
  "rbtree_find_cover(key) returns the entry with the greatest key that is <= key; when every entry is greater than key it wraps around to the greatest entry; it returns NULL only on an empty tree.",
  "every search tree, every key",
  "The answer depends on the whole path and the parent climb from a missing left child; tests only try some positions.",
  ["src/krbtree.c:rbtree_find_cover"])
p("C05","The supplied integer comparator orders integer keys",
  "rbtree_int_cmp is a total order on int keys, consistent with the integer order: negative iff key1<key2, zero iff equal, positive iff key1>key2.",
  "every pair of 32-bit ints",
  "Subtraction overflows only for distant keys; random small keys never show it.",
  ["src/krbtree.c:rbtree_int_cmp"])
p("C06","Chunked buffer is a byte FIFO",
  "A krw_buffer behaves as a byte queue: after any sequence of writes (krw_write_str, krw_get_write_buffer+krw_write_success, krw_append) and reads (krw_get_read_buffers/krw_read_success, krw_read), the bytes read so far followed by the bytes still in the buffer equal the bytes written, in order; total_len always equals the number of unread bytes; a write never overruns a chunk.",
  "every sequence of writes and reads, every chunk size >= 1, every split of the data over chunks",
  "Chunk-boundary cases (chunk exactly full, read ending exactly at a chunk end, empty trailing chunk) multiply with every history.",
  ["src/kbuf.c:krw_append","src/kbuf.c:krw_get_read_buffers","src/kbuf.c:krw_read_success","src/kbuf.c:krw_get_write_buffer","src/kbuf.c:krw_write_success","src/kbuf.c:krw_write_str"])
p("C07","krw_read returns exactly the available prefix",
  "krw_read(buf,len) copies and returns exactly min(len, unread bytes) bytes - the oldest ones - and removes exactly these from the buffer.",
  "every buffer state reachable by writes and reads, every len",
  "The loop crosses chunk boundaries and has three exits; the result depends on how earlier writes were split.",
  ["src/kbuf.c:krw_read"])
p("C08","krw_insert prepends",
  "krw_insert(buf) makes the bytes of buf the next bytes to be read, followed by exactly the bytes that were unread before, and total_len stays the number of unread bytes.",
  "every buffer state, every inserted chunk",
  "Only states where the head chunk was partly consumed distinguish a correct from an incorrect prepend.",
  ["src/kbuf.c:krw_insert"])
p("C09","Growable flat buffer never overruns and keeps its content",
  "For a ks_buffer: ks_write_str appends exactly the given bytes; ks_get_write_buffer always returns a non-empty free window directly behind the used bytes; growing never changes the bytes already written; used <= buf_size always; ks_save_point(hot) drops exactly the bytes before hot; ks_buffer_switch_read turns the written bytes into the readable window and the read calls then yield them in order.",
  "every sequence of operations, every initial size >= 1, every write length",
  "Reallocation happens only at particular fill levels and the arithmetic (doubling, 1024 alignment) must hold for all sizes.",
  ["src/kbuf.c:ks_guarantee","src/kbuf.c:ks_write_str","include/kbuf.h:ks_get_write_buffer","include/kbuf.h:ks_save_point","include/kbuf.h:ks_buffer_switch_read","src/kbuf.c:ks_read_success"])
p("C10","Seeking in a chunk chain / iovec array",
  "kbuf_seek(head,offset) denotes the same byte string as head with its first offset bytes dropped, and kgl_iovec_seek does the same for an iovec array and adjusts the count; neither dereferences past the end whenever offset is at most the total length.",
  "every chain / iovec array including empty chunks, every offset",
  "Boundary offsets (exactly at a chunk end, total length) and empty chunks are easily missed.",
  ["include/kbuf.h:kbuf_seek","include/kbuf.h:kgl_iovec_seek"])
p("C11","Fiber mutex bounds concurrency",
  "With a fixed limit L, at any time at most L fibers are between a successful kfiber_mutex_lock/try_lock and the matching kfiber_mutex_unlock (for the default mutex: at most one), for every interleaving of fibers and threads.",
  "every number of fibers/threads, every schedule, every limit >= 1, every lock/try_lock/unlock history",
  "Concurrency: violation needs a particular interleaving of hand-over and fresh locks.",
  ["include/kfiber_sync.h:__kfiber_mutex_lock","include/kfiber_sync.h:kfiber_mutex_unlock"])
p("C12","Fiber mutex never strands a waiter and counts exactly",
  "A fiber waits on the mutex only while the mutex is fully used; every unlock with waiters present hands the slot to exactly one waiter which is then woken; kfiber_mutex_get_count always equals holders plus waiters; kfiber_mutex_try_lock(max) refuses exactly when max>0 and count>=max; when all holders have unlocked and nobody waits the mutex is back in its initial state.",
  "every history of lock/try_lock/unlock from any number of fibers",
  "Lost wakeups appear only for particular interleavings of lock and unlock.",
  ["include/kfiber_sync.h:__kfiber_mutex_lock","include/kfiber_sync.h:kfiber_mutex_unlock","include/kfiber_sync.h:kfiber_mutex_try_lock"])
p("C13","Callback lock and fiber unlock are compatible",
  "A mutex acquired through kfiber_mutex_lock2 (callback style) can be released by kfiber_mutex_unlock: no assertion fails and the count stays the number of holders and waiters.",
  "every history mixing lock, lock2 and unlock",
  "The callback variant is a separate code path; counters drift only after mixed histories.",
  ["src/kfiber_sync.c:kfiber_mutex_lock2","include/kfiber_sync.h:kfiber_mutex_unlock"])
p("C14","Fiber rwlock: writer exclusion",
  "At any time either no fiber holds the kfiber_rwlock, or any number of readers hold it and no writer, or exactly one writer and no reader.",
  "every number of fibers/threads, every interleaving of rlock/wlock/runlock/wunlock",
  "Concurrency: needs the right interleaving of hand-over, waiting readers and waiting writers.",
  ["include/kfiber_sync.h:kfiber_rwlock_rlock","include/kfiber_sync.h:kfiber_rwlock_wlock","include/kfiber_sync.h:kfiber_rwlock_runlock","include/kfiber_sync.h:kfiber_rwlock_wunlock"])
p("C15","Fiber rwlock: no stranded waiter, writers not overtaken by new readers",
  "Whenever the lock is free nobody is waiting on it; a new reader never gets the lock while a writer waits; the unlock that frees the lock wakes all waiting readers (writer unlock with readers waiting) or one writer.",
  "every history of the four operations",
  "Stranding shows up only after particular histories.",
  ["include/kfiber_sync.h:kfiber_rwlock_rlock","include/kfiber_sync.h:kfiber_rwlock_wunlock","include/kfiber_sync.h:__kfiber_rwlock_try_wakeup_writer"])
p("C16","Fiber rwlock: a writer unlock never blocks the event loop",
  "kfiber_rwlock_wunlock wakes waiting readers of its own selector without ever making the selector thread wait for a lock it holds itself: a reader resumed by it may immediately release the lock.",
  "every state with waiting readers, every continuation of the resumed readers",
  "Needs a reader that unlocks before its next suspension; a hang, not a wrong value.",
  ["include/kfiber_sync.h:kfiber_rwlock_wunlock","include/kfiber.h:kfiber_wakeup"])
p("C17","Auto-reset fiber condition counts notices",
  "For an auto-reset condition (single-thread and thread-safe variants): every notice releases exactly one wait - a suspended waiter if there is one, otherwise the next wait/try_wait - and every returning wait consumes exactly one notice; so completed waits = notices - stored notices, and a fiber is suspended only while no notice is stored.",
  "every interleaving of notice/wait/try_wait/wait_callback",
  "Lost or duplicated wakeups depend on the interleaving.",
  ["src/kfiber_sync.c:kfiber_cond_notice_ar","src/kfiber_sync.c:kfiber_cond_wait_ar","src/kfiber_sync.c:kfiber_cond_try_wait_ar","src/kfiber_sync.c:kfiber_cond_notice_ts_ar","src/kfiber_sync.c:kfiber_cond_wait_ts_ar"])
p("C18","Manual-reset fiber condition is a latch",
  "For a manual-reset condition a wait returns only after some notice, the first notice releases every suspended waiter, and after it no wait ever suspends.",
  "every interleaving of notice/wait/try_wait/wait_callback",
  "Depends on the interleaving of waiters and notice.",
  ["src/kfiber_sync.c:kfiber_cond_notice","src/kfiber_sync.c:kfiber_cond_wait","src/kfiber_sync.c:kfiber_cond_notice_ts","src/kfiber_sync.c:kfiber_cond_wait_ts"])
p("C19","Condition wait reports the noticed value",
  "kfiber_cond wait(&got) sets got to the value passed to the notice that released the wait.",
  "every history of notices and waits",
  "Only the path where the notice came before the wait differs.",
  ["src/kfiber_sync.c:kfiber_cond_wait_ar","src/kfiber_sync.c:kfiber_cond_wait","src/kfiber_sync.c:kfiber_cond_notice"])
p("C20","Channel delivers each message exactly once",
  "On an unbuffered kfiber_chan every value is received by at most one receiver; a send returns 0 iff its value was handed to exactly one recv that returned 0, and returns -1 only if the channel was closed before delivery; recv never returns a value nobody sent; senders and receivers are never both suspended on the channel.",
  "every history of send/recv/close by any number of fibers of one selector",
  "Depends on the order in which fibers arrive and on close racing with pending senders/receivers.",
  ["src/kfiber_sync.c:kfiber_chan_send","src/kfiber_sync.c:kfiber_chan_recv","src/kfiber_sync.c:kfiber_chan_close"])
p("C21","Channel close releases everybody",
  "kfiber_chan_close wakes every suspended sender and receiver with -1 (receivers get NULL data), is idempotent, and afterwards send and recv return -1 at once without suspending.",
  "every channel state, every later history",
  "Depends on how many and which fibers are pending at close.",
  ["src/kfiber_sync.c:kfiber_chan_close","src/kfiber_sync.c:kfiber_chan_send","src/kfiber_sync.c:kfiber_chan_recv"])
p("C22","Channel is first-in first-out",
  "When several senders are suspended, their values are received in the order of the sends.",
  "every history with at least two suspended senders",
  "Ordering only matters when two or more fibers are queued.",
  ["src/kfiber_sync.c:kfiber_chan_send","include/kfiber.h:kfiber_add_waiter"])
p("C23","Fiber switching is properly nested",
  "On one selector thread, a suspended fiber always resumes exactly where it waited, control always returns from a suspending or exiting fiber to the fiber that resumed it last, and the chain of resumptions always ends in the selector's main loop; a fiber is never entered while it is already on that chain.",
  "every sequence of create/wakeup/wait/exit by any number of fibers",
  "Depends on arbitrarily nested wakeups.",
  ["include/kfiber.h:kfiber_wakeup","include/kfiber.h:__kfiber_wait","src/kfiber.c:__kfiber_switch","src/kfiber.c:kfiber_exit"])
p("C24","Fiber lifetime and join result",
  "A fiber created with a handle is freed exactly once, after it exited and its handle was joined (in either order), never earlier; without handle it is freed when it exits; join returns the value returned by the start function; kfiber_get_count equals the number of fibers not yet freed.",
  "every interleaving of exit, join, try_join and additional references",
  "Use-after-free/leak depend on the order of exit and join.",
  ["src/kfiber.c:kfiber_create2","src/kfiber.c:kfiber_release","src/kfiber.c:result_fiber_exit","src/kfiber.c:kfiber_join","src/kfiber.c:kfiber_try_join","src/kfiber.c:kfiber_ref_self"])
p("C25","Timers fire once, never early, in deadline order",
  "Every timer registered with kselector_add_timer is called back exactly once, in the first timeout pass whose clock is at or after its deadline, never in an earlier pass; in a pass timers with smaller deadline are called first; a timer added from a callback is not called in the same pass; nothing else changes the set of pending timers.",
  "every history of add_timer and passes, every (monotone or not) clock sequence, every delay including 0 and negative, callbacks adding timers",
  "Needs all interleavings of deadlines, equal deadlines and callbacks that add timers.",
  ["src/kselector.c:kselector_add_timer","src/kselector.c:kgl_insert_block_queue","src/kselector.c:kselector_check_timeout","src/kselector.c:kselector_add_block_queue"])
p("C26","Timers with equal deadline fire in registration order",
  "Two timers with the same deadline are called in the order they were added.",
  "every set of timers with equal deadlines",
  "Needs ties.",
  ["src/kselector.c:kgl_insert_block_queue","src/kselector.c:kselector_check_timeout"])
p("C27","Clock adjustment keeps relative deadlines",
  "kselector_adjust_time(d) moves every pending timer deadline and every idle-activity stamp by d, keeps the timer order, and hence after a clock jump by d every timer still has the same remaining time.",
  "every set of timers and connections, every d",
  "Depends on the set of pending timers and ties.",
  ["src/kselector.c:kselector_adjust_time","src/kselector.c:kselector_update_time"])
p("C28","Idle timeout is never early and never missed",
  "A connection in the connect/read-write list with timeout T and tmo extra rounds is shut down only after at least (tmo+1)*T milliseconds without being re-listed, and each timeout pass leaves no connection in the list that has been idle for at least T; a connection with the read-timeout flag gets its read callback with the timeout code instead and stays listed.",
  "every list of connections, every monotone clock sequence, every timeout > 0",
  "Depends on list order staying sorted under all add/remove/refresh histories.",
  ["src/kselector.c:kselector_check_timeout","include/kselectable.h:kselector_add_list","include/kselectable.h:kselector_remove_list"])
p("C29","Selector bookkeeping: each selectable in at most one list, count exact",
  "selector->count always equals the number of selectables/fibers in the three selector lists, and one is never in two lists at once; so kselector_can_close is true exactly if closed and nothing is pending.",
  "every history of list operations and timeout passes",
  "Counter drift only shows after particular histories.",
  ["include/kselectable.h:kselector_add_list","include/kselectable.h:kselector_remove_list","include/kselectable.h:kselector_add_fiber_ready","src/kselector.c:kselector_check_timeout"])
p("C30","Cross-thread notices run exactly once",
  "Every callback posted with the selector's next()/kepoll_notice from any thread is run exactly once by the selector thread; the drain loop never finds the list empty while it still owes callbacks; no posted callback stays pending without the eventfd being readable.",
  "every number of posting threads, every interleaving of the posts' list push and eventfd write with drain steps",
  "Concurrency between list push, eventfd write and drain.",
  ["include/kepoll_selector.h:kepoll_notice","include/kepoll_selector.h:kepoll_notice_event"])
p("C31","Cross-thread notices keep order",
  "Callbacks posted by one thread to a selector run in the order posted.",
  "every sequence of posts by one thread",
  "Order only visible when several posts are drained together.",
  ["include/kepoll_selector.h:kepoll_notice","include/kepoll_selector.h:kepoll_notice_event"])
p("C32","Worker pool runs every accepted job exactly once",
  "Every job accepted by kasync_worker_start / kasync_worker_try_start is executed exactly once; while jobs are queued at least one worker is running (max_worker>=1 and thread starts succeed), so none is stranded; normal jobs start in submission order; a rejected job is never executed.",
  "every number of submitters and workers, every interleaving",
  "Concurrency between submitters and exiting workers.",
  ["src/kasync_worker.c:kasync_worker_add","src/kasync_worker.c:kasync_worker_try_start","src/kasync_worker.c:kasync_worker_start","src/kasync_worker.c:kasync_worker_worker_thread"])
p("C33","Worker pool limits and lifetime",
  "At most max_worker worker threads run at a time; the queue length field equals the number of queued jobs; the worker object is freed exactly once, after the owner and every worker thread released it.",
  "every interleaving of submitters, workers and release",
  "Concurrency.",
  ["src/kasync_worker.c:kasync_worker_add","src/kasync_worker.c:kasync_worker_release","src/kasync_worker.c:kasync_worker_worker_thread"])
p("C34","Worker queue capacity",
  "With max_queue=M>0, kasync_worker_try_start never lets more than M jobs be queued.",
  "every history of submissions",
  "Off-by-one at the limit.",
  ["src/kasync_worker.c:kasync_worker_try_start"])
p("C35","Pool allocations are disjoint and in bounds",
  "Live blocks returned by kgl_palloc/kgl_pnalloc from one pool are pairwise disjoint, lie inside memory owned by the pool, do not overlap the pool headers, and kgl_palloc blocks are word aligned; so writing one never changes another.",
  "every sequence of allocation sizes, every pool size, kgl_reset_pool included",
  "Depends on the fill level of every block for every history of sizes.",
  ["src/kmalloc.c:kgl_palloc_small","src/kmalloc.c:kgl_palloc_block","src/kmalloc.c:kgl_palloc_large","src/kmalloc.c:kgl_create_pool","src/kmalloc.c:kgl_reset_pool"])
p("C36","Pool cleanup handlers",
  "kgl_destroy_pool runs every handler registered with kgl_cleanup_add exactly once with its data, newest first; kgl_cleanup_insert registers a handler at most once; kgl_reset_pool runs them and forgets them.",
  "every sequence of registrations, resets, other pool calls and the final destroy, on a pool whose size is a multiple of 8 (other sizes: C35)",
  "Depends on history.",
  ["src/kmalloc.c:kgl_cleanup_add","src/kmalloc.c:kgl_cleanup_insert","src/kmalloc.c:kgl_destroy_pool","src/kmalloc.c:kgl_reset_pool"])
p("C37","Pool arrays",
  "kgl_array_push / kgl_array_push_n always return storage for the requested number of new elements inside the array's allocation, and all previously pushed elements keep their values.",
  "every sequence of pushes, interleaved pool allocations, every initial capacity n and element size",
  "In-place growth happens only if the array is the last pool allocation.",
  ["src/kmalloc.c:kgl_array_push","src/kmalloc.c:kgl_array_push_n","include/kmalloc.h:kgl_array_init"])
p("C38","Intrusive list operations",
  "On a well-formed circular doubly linked list klist_append adds the element at the end, klist_remove removes exactly that element, both keep the forward and the backward walk mirror images of each other and touch no node outside the list.",
  "every list, every element, every memory layout",
  "Aliasing cases (empty list, neighbours being the head) for all layouts.",
  ["include/klist.h:klist_insert","include/klist.h:klist_remove","include/klist.h:kforward_list_append","include/klist.h:kfoward_list_remove"])
p("C39","Full-transfer loops transfer exactly the data",
  "kfiber_net_write_full / kfiber_net_read_full / kfiber_file_*_full: for any behaviour of the underlying partial transfers, the bytes transferred are exactly the first k bytes of the request, in order and without gap or repetition, the remaining length reported is exactly what was not transferred, and the result is true iff everything was transferred.",
  "every request length, every sequence of partial transfer results",
  "Partial transfer patterns are chosen by the kernel.",
  ["include/kfiber.h:kfiber_net_write_full","include/kfiber.h:kfiber_net_read_full","include/kfiber.h:kfiber_file_write_full","include/kfiber.h:kfiber_file_read_full","include/kfiber.h:kfiber_sendfile_full"])
p("C40","Vectored full write",
  "kfiber_net_writev_full writes a prefix of the concatenation of the buffers, returns its exact length, and if everything was written *bc is 0; the loop never reads beyond the array.",
  "every iovec array (any lengths, including 0), every sequence of partial write results",
  "Partial writes ending exactly at buffer boundaries and empty buffers.",
  ["include/kfiber.h:kfiber_net_writev_full"])
p("C41","TLS vectored I/O",
  "kgl_ssl_writev sends and kgl_ssl_readv receives exactly a prefix of the concatenated buffers for any sequence of partial results of the TLS layer, returns its length, and reports an error only if nothing was transferred.",
  "every iovec array, every sequence of TLS results",
  "Partial TLS results are chosen at run time.",
  ["src/kselectable.c:kgl_ssl_writev","src/kselectable.c:kgl_ssl_readv"])
p("C42","Direct I/O window",
  "For a file opened with direct I/O, kfiber_file_read(length) at offset o yields exactly the file bytes [o, o+n) with n<=length, via kfiber_file_adjust, the read issued being aligned, and the file offset advances by n.",
  "every offset, length, short-read count and file size",
  "Depends on the alignment of offset, length and short reads at end of file.",
  ["include/kasync_file.h:_kasync_file_get_adjust_offset","include/kasync_file.h:kasync_file_adjust_result","src/kepoll_selector.c:epoll_selector_aio_read"])
p("C43","Selector choice",
  "The number of selectors is a power of two (1..64) not above the requested number; get_perfect_selector always finds a selector whose load is not 64 or more above that of its successor and never reaches its assertion; get_selector_by_index maps every index to a valid selector.",
  "every requested size, every load vector, every index including after counter wrap-around",
  "Depends on load vectors and counter values near 2^32.",
  ["src/kselector_manager.c:kgl_pow2","src/kselector_manager.c:get_perfect_selector","src/kselector_manager.c:get_selector_by_index"])
p("C44","Address comparison is a total order",
  "ksocket_ipaddr_compare and ksocket_addr_compare are total preorders (antisymmetric, transitive), so that trees keyed by address behave as ordered maps.",
  "every pair and triple of addresses",
  "Fails only for particular pairs/triples.",
  ["include/ksocket.h:ksocket_addr_compare","include/ksocket.h:ksocket_ipaddr_compare"])
p("C45","Spin rwlock and writer-preferring spin rwlock",
  "With krw_mutex / kwr_mutex at any time there are either only readers or exactly one writer inside, for any number of threads; when all threads have left, the lock is free again.",
  "every number of threads, every interleaving of the individual loads and CAS steps",
  "Concurrency at instruction granularity.",
  ["include/ksync.h:krw_mutex_rlock","include/ksync.h:krw_mutex_wlock","include/ksync.h:kwr_mutex_rlock","include/ksync.h:kwr_mutex_wlock"])
p("C46","Thread event (kcond) semantics",
  "kcond: an auto-reset event releases one waiter per notice; a manual-reset event stays signalled until kcond_reset, so every wait after the notice returns; no wait returns without a notice.",
  "every interleaving of wait/try_wait/notice/reset including spurious pthread wakeups",
  "Concurrency and spurious wakeups.",
  ["include/ksync.h:kcond_wait","include/ksync.h:kcond_notice","include/ksync.h:kcond_try_wait"])
p("C47","Name-resolution cache answers every lookup once",
  "Every kgl_find_addr request is answered exactly once - immediately from the cache or when the resolver finishes - with a live address reference or NULL; concurrent requests for one name share one resolver run; the cached-entry count equals the number of cached entries.",
  "every history of lookups, resolver completions and flushes",
  "Depends on the interleaving of lookups, completions and expiry.",
  ["src/kaddr.c:kgl_find_addr","src/kaddr.c:addr_result","src/kaddr.c:update_addr_cache","src/kaddr.c:kgl_flush_addr_cache"])
p("C48","Server object lifetime",
  "A kserver is freed exactly once, and not before it was shut down/released by its owner, all its listening selectables are destroyed and all connections referencing it are closed.",
  "every history of open/accept/close events",
  "Depends on the order of closing events.",
  ["src/kserver.c:kserver_release","src/kserver.c:kserver_refs","src/kserver.c:kserver_selectable_destroy"])
p("C49","At most one outstanding read and write per socket, one callback each",
  "On the epoll selector, each accepted selectable_read / selectable_write request results in exactly one callback, with the result of the transfer, and is never reported for another request; readiness remembered from an earlier edge is not lost.",
  "every sequence of requests and epoll events on a socket",
  "Edge-triggered readiness races.",
  ["src/kepoll_selector.c:epoll_selector_read","src/kepoll_selector.c:epoll_selector_write","src/kepoll_selector.c:epoll_selector_select","src/kselectable.c:selectable_read_event","src/kselectable.c:selectable_write_event"])
p("C50","Thread pool bookkeeping",
  "kthread_pool_start runs each accepted function exactly once; the counters equal the numbers of working and idle threads; kthread_flush only ends threads idle for more than 60 seconds, oldest first, and leaves at least min_free idle ones; an idle thread is never given two jobs.",
  "every interleaving of starts, thread completions and flushes",
  "Concurrency and time.",
  ["src/kthread.c:run_thread","src/kthread.c:kthread_pool_start","src/kthread.c:kthread_flush"])
p("C51","Fiber mutex: waiting fibers are served fairly",
  "A fiber waiting in kfiber_mutex_lock is granted the lock after finitely many unlocks (it is not overtaken forever by fibers that came later).",
  "every schedule of lock and unlock by any number of fibers",
  "An infinite schedule: no finite test run shows starvation or its absence.",
  ["src/kfiber_sync.c:kfiber_mutex_lock","src/kfiber_sync.c:kfiber_mutex_unlock"])
p("C52","Intrusive singly linked list",
  "kforward_list_append adds the element at the end of the list, kfoward_list_remove removes exactly the given element, and neither changes any other node's data or touches a node outside the list.",
  "every heap holding a well formed forward list and every element",
  "Pointer surgery: aliasing and position have to be right for every length and position.",
  ["include/klist.h:kforward_list_append","include/klist.h:kfoward_list_remove"])
p("C53","Idle timeouts apply to every selector",
  "After selector_manager_set_timeout(c, r) every selector uses the connect timeout c and the read/write timeout r (c <= 0 means r, r <= 0 means 60 seconds) until the next call; before any call both are 60 seconds.",
  "every value of the arguments, every sequence of manager calls including growing the number of selectors",
  "All values and histories; the failing ones (growing later, values above 24 days) are not near usual test inputs.",
  ["src/kselector_manager.c:selector_manager_set_timeout","src/kselector_manager.c:selector_manager_grow","src/kselector_manager.c:selector_set_time_out"])
p("C54","Protocol string selects exactly the named TLS versions",
  "After kgl_ssl_ctx_set_protocols(ctx, s) with a non-empty s, each of SSLv2..TLSv1.3 is refused exactly if its name does not occur in s as a whole word (white-space delimited, any letter case); all other context options are unchanged. NULL or an empty string leaves the protocol options as they were.",
  "every byte string s and every previous option state of the context",
  "All strings: adjacent words, prefixes such as TLSv1 / TLSv1.1, leading and trailing blanks.",
  ["src/kgl_ssl.c:kgl_ssl_ctx_set_protocols"])
p("C55","TLS handshake and shutdown complete exactly once",
  "A TLS handshake (kconnection_ssl_handshake or kfiber_ssl_handshake) calls its callback / returns exactly once, with 0 exactly if OpenSSL finished (or accepted early data) and -1 on failure, and as long as it has not, exactly one socket request in the direction OpenSSL asked for is outstanding. Closing such a connection shuts the session down first and destroys the connection exactly once.",
  "every sequence of OpenSSL answers and socket completions, with and without early data, callback and fiber variant",
  "The sequence of want-read / want-write / error answers is chosen by the peer and the network.",
  ["src/kconnection.c:kconnection_ssl_handshake","src/kconnection.c:kselectable_ssl_handshake","src/kconnection.c:kselectable_ssl_shutdown","src/kconnection.c:kconnection_destroy","src/kfiber.c:kfiber_ssl_handshake","src/kfiber.c:kfiber_net_close"])
p("C56","A fiber's blocking call returns once, with its own result and buffer",
"When fibers of one selector call kfiber_net_read/readv, kfiber_net_write/writev, kfiber_net_connect, kfiber_net_getaddr, kfiber_msleep, kfiber_file_read/write or kfiber_sendfile, every call returns at most once, with the value of the completion of the operation this very call asked for (or -2 for its own read timeout), the bytes being in the buffer passed to that call; no call that has not returned is forgotten; and no assertion fails. The program must not start a read (write) on a connection whose read (write) has not returned, not close a connection with an unfinished call, and after a read that returned on the read timeout must next repeat it with the same buffer.",
"every number of fibers and connections, every interleaving of calls, completions (synchronous or later) and read timeouts",
"which call is resumed by which completion depends on the interleaving of all fibers; tests cover a few",
["include/kfiber.h: kfiber_net_readv, kfiber_net_writev, __kfiber_wait, kfiber_wakeup","src/kfiber.c: kfiber_net_connect, kfiber_net_getaddr, kfiber_msleep, kfiber_file_read, kfiber_result_callback","src/kselector.c: kselector_check_timeout"])
p("C57","io_uring backend: one callback per operation, with its own result",
 "With the io_uring selector every read, write, connect, accept, file or sendfile operation that is started calls its callback exactly once (or returns false at once when the ring refuses it), and the value passed is the kernel's result of that operation's own request (0 instead of a positive poll result for waits without buffer; the splice-to-socket result, after both splices ended, for sendfile; -1 only if the ring refused). No operation is forgotten, no request is left in the ring or the kernel after its callback, and both ends of each pipe made for sendfile are closed exactly once.",
 "all schedules of calls, submissions (succeeding or failing), kernel completions in any order with any result, and completion handling; any ring size; any number of sockets and files",
 "the kernel completes requests in any order and the ring can fill up at any point; tests see one interleaving",
 ["src/kiouring_selector.c: iouring_selector_read, iouring_selector_write, iouring_selector_sendfile, iouring_sendfile_result, handle_complete_event, kiouring_get_seq, iouring_selector_select","src/kselectable.c: selectable_read_event, selectable_write_event, selectable_next_read","src/kselector.c: kselector_check_timeout"])
p("C58","A blocking function called through the thread pool runs exactly once and its result is returned to the calling fiber",
  "When a fiber calls kfiber_thread_call(fn, arg, argc, &ret): if the call is refused (-1) fn is never run; otherwise fn(arg, argc) is run exactly once, by a pool thread, with exactly these arguments; the calling fiber does not continue before fn has returned; then the call returns once, on the selector of the calling fiber, with ret = the value fn returned. No call is forgotten: as long as it has not returned, the pool, a pool thread, the notice queue or the fiber itself can take the next step. This also holds when fn returns before the caller has gone to sleep, and with many fibers on many selectors calling at once.",
  "every number of selectors, fibers and pool threads, every interleaving of their steps, every function result, every failure of the pool to start a thread",
  "The dangerous schedule (the function returns, and the wake-up is delivered, before the caller sleeps) depends on a race between two threads; a test sees only the schedules it happens to get.",
  ["src/kfiber.c:_kfiber_worker_thread","src/kfiber.c:kfiber_thread_call","src/kfiber.c:kfiber_wakeup2","src/kfiber.c:kfiber_result_callback"])
p("C59","TLS over memory BIOs keeps both byte streams intact and reports every request once",
  "On a connection built with ENABLE_KSSL_BIO: the ciphertext the socket takes is exactly what the TLS engine produced, in order; the engine gets exactly what the socket delivered, in order (as many bytes as it asks for or all there are; 'try again' / end of file only when everything delivered was consumed); every selectable_read / selectable_write callback is called at most once, a write's with the number of bytes the engine took and only after everything it had produced was sent (or with the socket's failure), a read's with what SSL_read returned; no outstanding request is forgotten, no transfer buffer leaks, no assertion fails.",
  "every chunk size, every sequence of user calls, engine reads and writes of any length on its two BIOs, partial socket completions, timeouts and failures, in every order",
  "The bytes cross chunk boundaries and partial socket completions in arbitrary ways while the engine goes on writing into the buffer that is being sent.",
  ["src/kssl_bio.c:kgl_bio_read","src/kssl_bio.c:kgl_bio_write","src/kssl_bio.c:result_ssl_bio_read","src/kssl_bio.c:result_ssl_bio_write","src/kselectable.c:selectable_ssl_read","src/kselectable.c:selectable_ssl_write","src/kselectable.c:selectable_event_read","src/kselectable.c:selectable_event_write"])
p("C60","Replacing a tree node in place; finding an insertion point",
"Replacing the node of an entry by a newly allocated node (and freeing the old one) leaves the tree with the same entries in the same order, the new handle in place of the old one, still balanced, never referring to the old node, and every later insert/find/remove behaves as on that tree. The two-result lookup returns no node only for an empty tree; otherwise it returns an entry and its comparison with the key: 0 for the entry with that key, negative for the first greater entry (whose left slot is free), positive for the last smaller entry (whose right slot is free).",
"all histories before, all entries replaced, all histories after, all keys, all total orders",
"a dangling pointer to the replaced node shows only for particular tree shapes and later operations",
["src/krbtree.c: rb_replace_node","src/krbtree.c: rbtree_find2"])
p("C61","Requests on a socket of the kqueue selector",
"On a socket of the kqueue selector, for every caller that does not make a second read or write while one is pending: no assertion fails and no memory of a closed socket is used; every accepted read, write, sendfile, connect, next_read or next_write is called back exactly once, with what its transfer returned (0 for a request without a buffer, an error if registration failed); a pending request whose socket is ready is called back in the next turn of the loop; a socket with a pending request is always under an idle timeout (or already shut down by it) and one with none is in no list.",
"every sequence of requests, kernel events, reports, partial transfers, errors, refused kevent changes, timeouts and closes, in any order",
"The flags of the selectable, the kernel's edge-triggered filters and the ready loop's stale copy of the flags interact; a lost edge shows up only in particular orders.",
["src/kkqueue_selector.c:kqueue_add_event","src/kkqueue_selector.c:kqueue_selector_read","src/kkqueue_selector.c:kqueue_selector_write","src/kkqueue_selector.c:kqueue_selector_sendfile","src/kkqueue_selector.c:kqueue_selector_connect","src/kkqueue_selector.c:kqueue_selector_select","src/kkqueue_selector.c:kqueue_selector_remove","src/kselectable.c:selectable_event_write","src/kselectable.c:selectable_event_read","src/kselector.c:kselector_check_timeout"])
p("C62","Accepting connections",
"On a listening socket (epoll and kqueue), for a program that makes one accept at a time and destroys the listener only while none is waiting: every accept is called back exactly once; the connections handed out are the arrived ones in their order, none lost or given twice (except those reset or discarded by a close before being accepted); a waiting accept gets the oldest waiting connection in the next turn of the loop, and fails in the next turn once the server is closed; it fails only if the system call failed, the server was closed or the registration was refused; the listener never times out and the selector never touches it after it was destroyed.",
"every interleaving of arrivals, resets, accepts, edge reports, loop turns, system call failures, refused registrations, closes; both backends",
"An edge-triggered report lost between finding the queue empty and waiting again shows only for particular interleavings.",
["src/kepoll_selector.c:epoll_selector_accept","src/kepoll_selector.c:epoll_selector_listen","src/kkqueue_selector.c:kqueue_selector_accept","src/kserver.c:kselector_event_accept","src/kserver.c:kserver_close","src/kserver.c:kserver_selectable_next_shutdown","src/kserver.c:kserver_selectable_destroy"])
p("C63","kqueue notices: exactly once, no lost wake-up",
"Callbacks posted to a kqueue selector with next() from any threads, also from inside callbacks, run on the selector exactly once each; the posted sequence is taken in consecutive batches and each batch runs newest first, batch after batch; no memory of a notice is used after it was freed and none leaks; as long as the trigger system call does not fail, the selector is woken while a posted callback has not run, and one successful trigger is enough for everything posted before it to run.",
"every interleaving of posting threads, trigger failures, loop turns, posts from callbacks, allocator addresses",
"A post landing between the detach of the list and the next trigger shows only in particular interleavings.",
["src/kkqueue_selector.c:kqueue_selector_next", "src/kkqueue_selector.c:result_notice_event", "src/kkqueue_selector.c:kqueue_selector_init", "src/kkqueue_selector.c:kqueue_selector_select"])
p("C64","Fiber file reads and writes (epoll, Linux AIO, direct I/O)",
"For fibers using kfiber_file_read / kfiber_file_write / seek / tell on the epoll backend, one operation at a time per file: every accepted call is performed at most once by the kernel, its fiber stays suspended until then, and the call returns exactly once, to the fiber that made it, with what the kernel did for this call; a call works at the position given by the last seek plus the bytes read and written since, which is also what tell returns; a read delivers (at the place given by kfiber_file_adjust, also with direct I/O and any block size up to 32 KiB) the file's bytes from that position on, so consecutive reads concatenate to a contiguous part of the file; a finished operation always leaves the eventfd readable and the completion loop never spins; and once the kernel has performed what was submitted, every suspended call returns.",
"every number of fibers and files, every interleaving of calls, kernel completions (in any order, short, failing), eventfd signals and loop turns, every block size 2^k with k<16",
"Completion order, short transfers, late eventfd signals and offset arithmetic multiply; a test sees a handful of them.",
["src/kepoll_selector.c:epoll_selector_aio_read", "src/kepoll_selector.c:epoll_selector_aio_write", "src/kepoll_selector.c:result_aio_event", "src/kfiber.c:kfiber_file_read", "src/kfiber.c:kfiber_file_write", "src/kfiber.c:kfiber_file_seek", "src/kfiber.c:kfiber_file_tell", "include/kasync_file.h:kasync_file_adjust_result"])
p("C65","Debugging allocator (MALLOCDEBUG): malloc, calloc, realloc, free",
"In a MALLOCDEBUG build, for any interleaving of threads: malloc and calloc return NULL for 0 bytes and otherwise a new block of the size asked for (0xcc / zeros), realloc a block holding the old contents up to the shorter length; blocks with their guard bytes never overlap each other or freed blocks awaiting release, and a block's bytes change only by the program's own writes; free and realloc abort exactly when a guard byte of the block is damaged; with ENABLE_FREE_MEMORY_CHECK a freed block is kept until its bucket has been swept twice, released then only if untouched, and an altered one makes the sweeper abort; the memory held from the C library is exactly the live blocks and the freed ones awaiting release; listing leaks counts every unfreed guarded block once; and a program that stays inside its blocks meets no abort.",
"every number of threads, every interleaving of their calls with writes, sweeps and a leak listing, every placement by the C library, every size, table size and hash function",
"Overlap, damage detection and the delayed release depend on addresses, hash collisions, thread interleavings and the phase of the sweeper.",
["src/kmalloc_debug.c:realloc", "src/kmalloc_debug.c:free", "src/kmalloc_debug.c:calloc", "src/kmalloc_debug.c:malloc", "src/kmalloc_debug.c:check_ptr", "src/kmalloc_debug.c:free_ptr", "src/kmalloc_debug.c:memory_debug_thread", "src/kmalloc_debug.c:dump_memory_leak", "src/kmalloc_debug.c:start_hook_alloc"])
p("C66","Windows backend: completion-port requests are answered once, with the kernel's result",
"On the IOCP backend, for connections, UDP sockets, listening sockets and asynchronous files, used by the rules (one request per direction, close only when nothing is pending, accept socket collected before the next accept): every request - read, write, sendfile, connect, accept, file read or write, read/write-event request, next - is answered at most once and only after it was made; a read timeout notice reaches only an open read; the answer is exactly what the kernel reported for this very request (-1 for an error or a refused start, 0 for an event request, the posted value for next); a call returns false only if the kernel refused it or the server was stopped; next runs its callbacks in the order they were posted from all threads and frees each block once; a waiting connection is always on a timeout list or already shut down, one that waits for nothing is on none; sockets made for accept are handed over or closed exactly once; nothing freed is touched and no assertion fails; and the loop by itself always comes to rest with every request answered.",
"every number of objects and requests, every interleaving of calls, kernel completions in any order with any result, immediate failures of any call, timeouts, stops and READY-list rounds",
"Completions arrive in any order and interleave with timeouts and the READY list; the two directions of an object share flags and list links, and tests exercise only a few of these interleavings, never the failure of every call at every point.",
["src/kiocp_selector.c:iocp_selector_read", "src/kiocp_selector.c:iocp_selector_write", "src/kiocp_selector.c:iocp_selector_connect", "src/kiocp_selector.c:iocp_selector_accept", "src/kiocp_selector.c:iocp_selector_next", "src/kiocp_selector.c:handle_complete_event", "src/kiocp_selector.c:iocp_selector_select", "src/kselector.c:kselector_check_timeout", "src/kserver.c:kserver_get_socket"])
p("C67","Reference counted strings shared by threads",
"A string made by kstring_from, kstring_from2 or convert_refs_string is read by every thread that holds a reference to it as exactly the bytes and the length it was made of (followed by a 0 byte if it was copied), however kstring_refs and kstring_release of other threads interleave; kstring_get_ref counts the references; header and bytes exist as long as there is a reference, are freed exactly once, by the release of the last one and no other call, and nothing is left when no reference is; no call touches freed memory or fails its assertion; NULL is accepted by kstring_refs, kstring_release and kstring_from.",
"every number of threads and strings, every string, every interleaving of the atomic steps of the calls",
"A lost or early free depends on how the decrements of several threads interleave.",
["include/kstring.h:convert_refs_string", "include/kstring.h:kstring_refs", "include/kstring.h:kstring_release", "include/kstring.h:kstring_get_ref", "include/kstring.h:kstring_from", "include/kstring.h:kstring_from2", "include/katom.h:katom_inc", "include/katom.h:katom_dec", "include/kforwin32.h:kgl_strndup"])
p("C68","Selector manager: start-up, callbacks and shutdown",
"Callbacks given to selector_manager_on_ready and timers given to selector_manager_add_timer, before or after selector_manager_init, and kselector_add_timer_ts, from any thread: each callback is called at most once and, once the selectors are started and unless the manager is closed, the steps of one selector's own thread suffice to call it; each timer fires at most once, never before the clock has advanced by the time asked for, and fires when time passes; on every selector thread the callbacks of selector_manager_thread_init are each called first (before anything else on that thread), in the opposite order of registration, and again, with the exit flag, when the thread ends, after everything else; selector_manager_thread_init is refused once selector_manager_init was called; selector_manager_close destroys a selector only when its thread is over; no call uses a selector that does not exist yet or any more.",
"every number of program threads, selectors, callbacks and timers, every interleaving of their steps, every advance of the clock",
"Lost and doubled callbacks depend on how registrations interleave with start-up and shutdown.",
["src/kselector_manager.c:selector_manager_init", "src/kselector_manager.c:selector_manager_start", "src/kselector_manager.c:selector_manager_close", "src/kselector_manager.c:selector_manager_on_ready", "src/kselector_manager.c:selector_manager_add_timer", "src/kselector_manager.c:kselector_add_timer_ts", "src/kselector_manager.c:selector_manager_thread_init", "src/kselector_manager.c:kselector_thread", "src/kselector_manager.c:selector_manager_grow", "src/kselector_manager.c:is_selector_manager_init"])
p("C69","Files: modes, appending, reading whole, positions",
"kfopen succeeds iff the file exists or the mode creates it (all but fileRead and fileReadWrite), truncates it iff the mode is fileWrite or fileWriteRead, and changes nothing else; through the handle only what the mode allows can be done (reading: fileRead, fileReadWrite, fileWriteRead; writing: all but fileRead); the content of a file changes only by writing through a handle opened on it for writing or by a truncating kfopen; while a file is opened with fileRead and fileAppend only, its content is what it was followed by the bytes of every kfwrite in the order of the calls, each in one piece, whatever kfseek is called; kfread, kfwrite, kfseek and kfsize work on the bytes at the handle's position; kfread_all, while no other call uses the handle, returns true iff the whole buffer was filled, with the bytes that stand in the file from the position on (each as it was at some moment of the call; exactly those of the file if it is only appended to), never writes outside the buffer, fails only if a kfread failed or the file ended, and ends after at most as many kfreads as bytes; no child process inherits a handle unless kfile_close_on_exec allowed it; on POSIX kftime gives the time kfutime set until the file is changed; all this is the same on POSIX and Windows.",
"every number of files, handles and threads, every interleaving of calls, every short count and error of the system",
"Appending and reading in pieces depend on short counts and on how the calls of several threads interleave.",
["src/kfile.c:kfopen", "src/kfile.c:kfopen_w", "src/kfile.c:kfseek", "include/kfile.h:kfread_all", "include/kfile.h:kfread", "include/kfile.h:kfwrite", "include/kfile.h:kfsize", "include/kfile.h:kfutime", "include/kfile.h:kftime", "include/kfile.h:kfile_close_on_exec"])
p("C70","Opening sockets: no descriptor lost, closed twice or taken from another thread",
"Whatever system calls fail, and however the calls of several threads interleave: ksocket_listen, ksocket_new_udp, ksocket_accept, ksocket_connect and ksocket_half_connect either return a descriptor, and then it is open, new and the only one the call left open, or return INVALID_SOCKET, and then the thread's descriptors are what they were; they fail iff socket, accept, bind, listen, connect or the final poll failed (a connect in progress is a success of ksocket_half_connect; setsockopt and fcntl never make them fail). The socket returned has the family of the address, the kind and the close-on-exec bit, is nonblocking as asked unless fcntl failed, has no option but those asked for, all of them unless a setsockopt failed, and they were set before bind; it is bound to the address given and listening, or connected to the address given. A path is unlinked only by ksocket_listen on that UNIX address after stat showed a socket there. A call makes at most 12 system calls. ksocket_close closes just the descriptor given. So a thread not in a call has open exactly the descriptors its calls returned and it did not close.",
"every number of threads, every interleaving of their system calls, every sequence of answers of the system, every address, flags, timeout and mark",
"Leaks and double closes sit on the error paths, one per failing call and combination of flags, and a double close shows only when another thread has got the number meanwhile.",
["src/ksocket.c:ksocket_listen", "src/ksocket.c:ksocket_new_udp", "src/ksocket.c:ksocket_accept", "src/ksocket.c:ksocket_connect", "src/ksocket.c:ksocket_half_connect", "src/ksocket.c:wait_socket_event", "include/ksocket.h:ksocket_no_block", "include/ksocket.h:ksocket_close"])
p("C71","What a connection owns is given back exactly once",
"Every connection made by kconnection_new/new2/new3, accept_result_new_connection or kudp_new2 has its own memory, pool, descriptor, SSL object and session, SNI object and UDP area, at most one of each, and a reference to its server. All of them are given back exactly once, in one go, when the connection is destroyed (kconnection_real_destroy or kfiber_net_close at once; kconnection_destroy at once unless a TLS shutdown has to wait for the socket, and then when that wait ends with a result), never before, and in a safe order: descriptor, SSL object, session, SNI object, server reference or UDP area, pool, memory. A creation that returns NULL leaves nothing behind, neither memory, descriptor, SSL object nor reference. When all connections are destroyed nothing is left. kconnection_half_connect connects to the address the connection was made for. No destroyed connection is used and nothing is read outside its object.",
"every number of connections and servers, every interleaving of the calls, every failure of the socket calls, SSL_new, SSL_set_fd and the SNI callback, every course of SSL_shutdown",
"Leaks and double frees depend on which of the optional resources a connection got and which step failed; tests see only a few of the combinations.",
["src/kconnection.c:kconnection_new", "src/kconnection.c:kconnection_new2", "src/kconnection.c:kconnection_new3", "src/kconnection.c:kconnection_real_destroy", "src/kconnection.c:kconnection_destroy", "src/kconnection.c:kconnection_half_connect", "src/kconnection.c:kconnection_ssl_connect", "src/kconnection.c:kconnection_ssl_accept", "src/kselectable.c:selectable_clean", "src/kudp.c:kudp_new2", "src/kserver.c:accept_result_new_connection", "src/kgl_ssl.c:kgl_ssl_sni"])
p("C72","Fiber file I/O through worker threads, from any thread",
"With the worker backend of fiber files (KF_ASYNC_WORKER), for programs that use an open handle for one call at a time: every call of kfiber_file_read, _write, _read_full, _write_full, _safe_read and _safe_write_full (the last two from any thread) returns exactly once, to the fiber that made it, which is suspended until then; what it returns is the outcome of the preads and pwrites made for this very call with its own buffer, the first at the handle's position at the time of the call and each further one where the one before ended; a single call makes exactly one, a full call returns true iff everything was transferred and otherwise ends with the first one that transfers nothing, and the remaining length is exact; a read delivers the bytes of the file from the position on, a write_full that returns true has put exactly its data at the position; position and tell are the last seek plus what was transferred since; calls on different handles do not influence each other beyond the contents of a shared file; the completion runs on the handle's own thread; no freed handle is touched and no fiber is woken that does not wait; and as long as a call has not returned a worker, selector or fiber step is possible, each of which brings the calls nearer to their return.",
"every number of threads, fibers, handles, files and workers, every interleaving of their steps, every partial transfer, end of file and failure of pread/pwrite, every failure to create the helper fiber",
"The request lives in the shared handle and is read by a worker thread later; only proofs cover all interleavings of callers, workers and selectors.",
["src/kasync_file.c:kasync_file_worker_callback", "src/kasync_file.c:kasync_file_worker_start", "src/kkqueue_selector.c:kqueue_selector_aio_read", "src/kkqueue_selector.c:kqueue_selector_aio_write", "src/kfiber.c:kfiber_file_read", "src/kfiber.c:kfiber_file_write", "src/kfiber.c:kfiber_file_callback", "src/kfiber.c:kfiber_file_safe_read", "src/kfiber.c:kfiber_file_safe_write_full", "include/kfiber.h:kfiber_file_write_full", "include/kfiber.h:kfiber_file_read_full"])
p("C73","TLS contexts are built completely or not at all, from the texts given",
"kgl_ssl_ctx_new_server, whatever calls of OpenSSL or stdio fail, either returns a context or returns NULL and leaves no certificate, chain, key, BIO, digest or file behind. A context it returns serves the first certificate of the certificate file, with the following ones as its chain in order and the first key of the key file (both from one file if no certificate file is named), the certificate and key belong together, the key was not encrypted or opened by the password given, SSLv2 and SSLv3 are off, client certificates are demanded exactly if an authority file or path is given (and that one is used), and the session id context is derived from the file. A file with an undecodable block is rejected. If nothing fails and the files are good the context is returned. kgl_ssl_ctx_new_server2 and kgl_ssl_certificate (any number of times on a context, with a list of passwords of which the first fitting one is used) do the same from \"data:\" texts or files, kgl_ssl_ctx_new_client makes a context that verifies the server exactly if authorities are given.",
"every text and file, every combination of arguments and passwords, every failure of any OpenSSL or stdio call, every number of certificates",
"Every error exit frees a different set of objects, and any call can fail; tests reach few of the exits and cannot fail OpenSSL calls one by one.",
["src/kgl_ssl.c:kgl_ssl_ctx_new", "src/kgl_ssl.c:kgl_ssl_ctx_new_client", "src/kgl_ssl.c:kgl_ssl_ctx_new_server", "src/kgl_ssl.c:kgl_ssl_ctx_new_server2", "src/kgl_ssl.c:kgl_ssl_certificate", "src/kgl_ssl.c:kgl_ssl_load_certificate", "src/kgl_ssl.c:kgl_ssl_load_certificate_key", "src/kgl_ssl.c:kgl_ssl_ctx_post_init", "src/kgl_ssl.c:kgl_ssl_session_id_context", "src/kgl_ssl.c:kgl_ssl_password_callback"])
p("C74","Server name and application protocol of a TLS connection",
"On a server connection, whatever sequence of ClientHello messages arrives (first, after a retry request, renegotiation), with any host names and protocol lists: the SNI callback makes at most one object per connection, is never asked again once it gave one, and the object is released exactly once, with the connection; the connection uses the context the callback named last, or the listener's; if the callback always gives an object it is asked once, with the first name the client presents, and that answer holds for the rest of the connection. A handshake is refused only if the server demands a name and some ClientHello has none, and it is refused if the first one has none. The protocol selected by ALPN is the first of those the npn callback names for the context in use (http/1.1 if it names none) that the client offers, none if there is none; no byte outside the lists is read.",
"every sequence of ClientHellos, every host name and well-formed protocol list, every answer of the SNI and npn callbacks, every set of contexts and their callbacks",
"Handshakes with retries, renegotiation and both callbacks calling each other, and protocol lists of any length, cannot be enumerated.",
["src/kgl_ssl.c:kgl_ssl_sni", "src/kgl_ssl.c:kgl_ssl_npn_selected", "src/kgl_ssl.c:kgl_ssl_npn_advertise", "src/kgl_ssl.c:kgl_ssl_ctx_post_init", "src/kconnection.c:kconnection_real_destroy", "include/kgl_ssl.h:KGL_HTTP_NPN_ADVERTISE"])
p("C75","A resumed fiber finds itself as it left",
"In the default build for x86-64 System V: whatever fibers are created, switched between and freed, in any order, with any registers and memory contents, a fiber that switched away and is switched to again by any other fiber continues after its own call with its own callee-saved registers, stack pointer, MXCSR and x87 control word and its stack contents as left (but for what user code wrote there), and learns which fiber switched to it; a new fiber enters its start function with its creator's control words, an aligned stack pointer within 23 bytes of the top of its own stack and the fiber that switched to it as argument; if the function returned, the process would exit with status 0. Creating a fiber returns to its caller with all of the caller's registers. Switching writes only below the stack pointers of the fibers involved, creating only below the caller's stack pointer and into the new stack.",
"every schedule of user code, creations, switches and releases (unbounded, memory reused), every register and memory contents, every stack address and size",
"A wrong offset, a register not saved or an unaligned stack shows only with particular register contents and schedules; tests see one compiler's register allocation.",
["fcontext/src/asm/jump_x86_64_sysv_elf_gas.S:jump_fcontext", "fcontext/src/asm/make_x86_64_sysv_elf_gas.S:make_fcontext", "src/kfiber.c:__kfiber_switch", "src/kfiber.c:update_fcontext", "src/kfiber.c:fiber_start", "src/kfiber.c:kfiber_new"])
p("C76","UDP reads give every datagram once, whole and with its addresses",
"Whatever reads are started on a UDP socket, by the main fiber or others, with any buffers, and whatever datagrams arrive in between: each completed read gives one datagram, in the order of arrival, none lost or repeated; the buffers get its bytes in order as far as they fit and nothing beyond, the value given to the callback is the number of bytes written, the connection's address becomes the sender's, and (IPv4, opened with KSOCKET_IP_PKTINFO) kudp_get_recvaddr gives the local address the datagram was sent to. A failed read leaves the buffers alone and reports a negative value. Every started read completes at most once, and a pending read completes in the next round of the loop when a datagram waits.",
"every schedule of arrivals, reads, selector rounds and recvmsg failures (unbounded), every buffer list, datagram contents and memory contents; epoll, kqueue and io_uring backends",
"Lost wake-ups depend on the order of arrival, poll and read; scatter boundaries and control-message layouts depend on sizes and contents.",
["src/kselectable.c:selectable_recvmsg", "src/kselectable.c:selectable_udp_read_event", "src/kudp.c:kudp_new2", "src/kudp.c:kudp_get_recvaddr", "src/kepoll_selector.c:epoll_selector_read", "src/kiouring_selector.c:iouring_selector_recvmsg", "include/ksocket.h:ksocket_addr_len"])
p("C77","Fiber file I/O over POSIX AIO returns what the kernel did, at the right position",
"On the kqueue backend, whatever reads, writes, seeks and closes fibers do on a file, whenever the kernel performs the operations and with whatever results: a call that was accepted returns exactly once, with the kernel's result for this very call, made at the position given by the last seek plus what was transferred since; a read finds the file's bytes from that position in its buffer, a write leaves exactly its bytes there; a performed operation makes its call return in the next rounds of the loop; once a call has returned no list of the selector refers to the file, so that it may be closed.",
"every sequence of calls, kernel completions, failures, selector rounds and closes (unbounded), every file contents, offset and length",
"Depends on which submissions fail (AIO queue full) and on the order of earlier reads and writes on the handle; a dangling list entry shows long after close.",
["src/kkqueue_selector.c:kqueue_selector_aio_read", "src/kkqueue_selector.c:kqueue_selector_aio_write", "src/kkqueue_selector.c:kqueue_selector_select", "src/kfiber.c:kfiber_file_callback", "src/kfiber.c:kfiber_file_read", "src/kfiber.c:kfiber_file_write", "src/kselector.c:kselector_check_timeout", "src/kasync_file.c:kasync_file_worker_callback"])
p("C78","On arm64 a fiber that is resumed finds itself as it left",
"On arm64, whatever fibers exist and in whatever order they switch, are created and freed: a fiber that switched away and is switched to again returns from its call, with its callee-saved registers (x19-x29, sp, d8-d15) and its stack contents, and learns which fiber resumed it; a new fiber enters its start routine once, on its own aligned stack, and returning from it ends the process with status 0; switching writes only 176 bytes below the stack pointer of the fiber that leaves, kfiber_new only into the new block.",
"every schedule of switches, creations, releases and user code (unbounded), every register contents, every memory layout and stack size",
"A register saved in the wrong slot shows only when the compiler keeps a live value in that register across a switch, on that processor.",
["fcontext/src/asm/jump_arm64_aapcs_elf_gas.S:jump_fcontext", "fcontext/src/asm/make_arm64_aapcs_elf_gas.S:make_fcontext", "src/kfiber.c:__kfiber_switch", "src/kfiber.c:update_fcontext", "src/kfiber.c:fiber_start", "src/kfiber.c:kfiber_new"])
p("C79","Callbacks posted to an io_uring selector run exactly once and are not lost",
"With any number of threads posting callbacks to an io_uring selector (kselector next) at any moment, also from callbacks: in every run, whatever the kernel does, no callback runs twice and none that was not posted runs, callbacks run one at a time from the selector's loop, and taking a notice never blocks the loop. As long as the kernel takes the submissions it is given and does not fail the poll of the eventfd, nothing crashes, every wait of the selector ends, and every posted callback is eventually run. The wait lasts exactly the timeout given, for 0 to 2147 ms.",
"every interleaving of posters, the selector thread and the kernel (partial submissions, completions in any order, interrupted waits), of any length, every ring size",
"Whether a notice is lost depends on how the submission ring, the eventfd and the completion order interleave; tests meet a full ring or a refused submission hardly ever.",
["src/kiouring_selector.c:iouring_selector_select", "src/kiouring_selector.c:iouring_handle_cq", "src/kiouring_selector.c:handle_complete_event", "src/kiouring_selector.c:kiouring_notice_event", "src/kiouring_selector.c:kiouring_get_seq", "src/kiouring_selector.c:iouring_add_timeout", "include/kepoll_selector.h:kepoll_notice_event"])
p("C80","Limits of a worker pool changed while it runs",
"kasync_worker_set may be called at any moment: every accepted job is still called exactly once and, as long as every limit on workers was at least 1, none is stranded; never more workers run than the largest limit so far; after the limit is lowered to m, the number of workers never exceeds m or what it was at that moment; after it is raised, waiting jobs get the additional workers.",
"every interleaving of submitters, workers, releases and limit changes, any limits",
"A change of the limits meets jobs and workers in every possible state.",
["include/kasync_worker.h:kasync_worker_set", "src/kasync_worker.c:kasync_worker_add", "src/kasync_worker.c:kasync_worker_worker_thread"])
p("C81","From opening a server to the program's accept callback",
"Every connection a server accepts is handed to the program's accept callback exactly once, on the thread of the selector the connection belongs to, with a data argument that is still valid; with two listeners or more at once on the accepting thread. An open server keeps accepting until it is closed: whatever happens to single accepts, its listeners ask for the next connection. After kserver_close every listener accepts at most one connection more and is then gone. kserver_open returns false only if no listener was made, and then the server may be opened again.",
"every number of selectors, every interleaving of their threads, every result of listen, accept and TLS object creation, every moment of close",
"Listeners, posted callbacks and close run on several threads in any order, and failing accepts are rare in tests.",
["include/kserver.h:KACCEPT_CALLBACK", "src/kserver.c:kserver_open", "src/kserver.c:kserver_close", "src/kserver.c:kserver_next_accept", "src/kserver.c:kserver_selectable_accept", "src/kserver.c:accept_result_new_connection", "src/kserver.c:kserver_get_perfect_selector"])
p("C82","Colour packed into the parent pointer of a tree node",
"Storing the colour of a tree node in the low bit of its parent pointer is invisible: setting the parent leaves the colour and setting the colour leaves the parent, whatever the word was, and any code that uses the word only through the library's accessors gets the same answers as with two separate fields - provided every node address is a multiple of 4.",
"every word, every node address, 32 or 64 bit, every program over the accessors of any length with any other state",
"A mask with the wrong width or bit goes wrong for some addresses only.",
["include/krbtree.h:krb_node", "include/krbtree.h:rb_link_node", "src/krbtree.c:rb_parent", "src/krbtree.c:rb_color", "src/krbtree.c:rb_set_parent", "src/krbtree.c:rb_set_color", "src/krbtree.c:rb_set_red", "src/krbtree.c:rb_set_black"])
p("C83","The supplied string comparators order string keys",
"rbtree_string_cmp and rbtree_string_case_cmp (and rbtree_file_cmp, which is one of them) compare string keys by dictionary order of their bytes, the second after mapping A-Z to lower case, reading neither string beyond its terminator; both are total orders, so a tree with string keys lists its entries in that order and finds an entry exactly if one with that string is there.",
"every pair of terminated strings of any length and any bytes, every history of tree operations on string keys",
"Signed bytes, prefixes and the range between Z and a break orders only for particular strings, and a broken order damages a tree only in some insertion orders.",
["src/krbtree.c:rbtree_string_cmp", "src/krbtree.c:rbtree_string_case_cmp", "src/krbtree.c:rbtree_file_cmp", "include/kforwin32.h:filecmp"])
p("C84","Atomic operations mean the same on both platforms and lose nothing",
"Every atomic operation has the same result and effect with GCC and on Windows, for 16, 32 and 64 bits: inc and dec return the new value, add, sub, set and get the old one, cas whether it took place (the most negative argument of sub excepted). For any number of threads: the value is the start plus the sum of all additions modulo the width; up to 2^w increments return different values; of v references each dropped once exactly the last drop sees zero; of any number of attempts to take a flag with cas exactly the first succeeds.",
"every value and argument, every number of threads and operations in every order",
"A result that is old on one platform and new on the other, or a wrap, shows for particular orders and values only.",
["include/katom.h:katom_inc", "include/katom.h:katom_dec", "include/katom.h:katom_add", "include/katom.h:katom_sub", "include/katom.h:katom_set", "include/katom.h:katom_get", "include/katom.h:katom_cas"])
p("C85","Ticks of a selector: each registered one is called once per round, in order, and never after it is closed",
"In a round of the selector's loop every tick registered when the round begins and not closed before its turn is called exactly once, with the number of events; the calls are in registration order, none is called twice, only registered ones are called. This holds whatever ticks the callbacks create, register and close (their own too), except that a callback must not close the tick which is after its own: the loop has saved a pointer to it and goes on into freed memory. A closed tick is never called again. One registered by a callback is called in the same round, unless that was the last tick's callback: then from the next round on. The time the selector may wait is at most 100 ms, more than 0 and not more than any positive result of a callback. Without a selector in the thread register and close return false and do nothing.",
"every number of ticks, every sequence of creations, registrations, closings and rounds, every behaviour and result of the callbacks",
"Which pointer the loop has saved when a callback changes the list depends on the list and on the callback; a freed tick which is read gives no sign until the memory is used again.",
["src/kselector.c:kselector_new_tick", "src/kselector.c:kselector_register_tick", "src/kselector.c:kselector_close_tick", "src/kselector.c:kselector_check_timeout", "include/kselector.h:SELECTOR_TMO_MSEC"])
p("C86","Windows allocation tracking reports exactly the live blocks; its search path is assembled without overrun",
"With tracking on under Windows, after any sequence of successful allocations, reallocations and frees, the leak report lists exactly the blocks allocated since the start which still live and whose age is in the range asked for, each once, with size and time; the result is their number, the total the sum of the sizes modulo 2^32, the file is kept unless there are none, -1 if it cannot be opened. Blocks of the C runtime and those from before the start are never listed. (Not so once an allocation fails: it is listed for ever, after a failed realloc the live block is missing, and a number used again hangs the allocator.) Appending to the debugger's search path gives the two strings in a buffer of exactly the size (unless the second is empty: then uninitialised memory is read), and quotation marks are removed from it, if no two are adjacent.",
"every sequence of allocations, reallocations and frees, every size, time and age range; every pair of strings and every path",
"The records are kept apart from the blocks, by number in 16384 tables; which of them agree depends on the whole history. An empty environment variable occurs on few machines.",
["src/kmalloc_debug_win32.c:xallochook", "src/kmalloc_debug_win32.c:win32_malloc_hook", "src/kmalloc_debug_win32.c:win32_free_hook", "src/kmalloc_debug_win32.c:win32_realloc_hook", "src/kmalloc_debug_win32.c:ptr_list_insert", "src/kmalloc_debug_win32.c:ptr_list_remove", "src/kmalloc_debug_win32.c:dump_memory_leak", "src/kmalloc_debug_win32.c:strapp", "src/kmalloc_debug_win32.c:buildsymbolsearchpath"])
p("C87","Summaries kept in tree nodes are right after every update",
"A caller may keep in each node of a red-black tree a summary of its subtree (a count, a sum, the greatest end of an interval), computed by a function from the node's data and the summaries of its children. If rb_augment_insert is called after each insertion (rb_augment_erase_begin before and rb_augment_erase_end after each removal), then after each call the summary in every node is that of its data and its children's summaries, whatever rotations took place; for an associative operation the summary of the root is the combination of all entries in order.",
"every comparator that is a total order, every summary function, every sequence of insertions and removals, every initial contents of the summaries",
"Which nodes change children depends on the shape of the whole tree; the code updates only one path to the root and the other children along it, and a node missed there is noticed only by a later query.",
["src/krbtree.c:rb_augment_path", "src/krbtree.c:rb_augment_insert", "src/krbtree.c:rb_augment_erase_begin", "src/krbtree.c:rb_augment_erase_end", "src/krbtree.c:rb_insert_color"])
p("C88","Integers are written into buffers as their decimal text",
"krw_write_int, krw_write_int64, ks_write_int and ks_write_int64 append exactly the decimal text of the number: a minus sign if it is negative, then its digits without a leading zero, nothing cut off and no terminating zero byte. In a krw_buffer the text is read behind what was unread before and before what is written later, whatever the chunk size; in a ks_buffer the effect is that of ks_write_str of that text. Two numbers never get the same text.",
"every value of int (int64_t), every chunk size, every program of writes and reads before and after, every state of the ks_buffer",
"The text is made in a local buffer of fixed size and its length is taken from snprintf, which reports the length before cutting: only a proof over all values shows the buffer always suffices, and chunk boundaries may fall anywhere in the text.",
["src/kbuf.c:krw_write_int", "src/kbuf.c:krw_write_int64", "src/kbuf.c:ks_write_int", "src/kbuf.c:ks_write_int64", "src/kbuf.c:krw_write_str"])
with open('/verif/properties.jsonl','w') as f:
    for x in P: f.write(json.dumps(x)+"\n")
print(len(P))
