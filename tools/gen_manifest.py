import json
C=[]
def c(p,st,th,note): C.append(dict(property=p,status=st,theorems=th,note=note))
c("C01","proved",["C01_rbtree_contents","C01_spec_put","C01_spec_drop","C01_spec_lookup"],"pointer-level krbtree.c; every legal history from the empty tree")
c("C02","proved",["C02_rbtree_balanced"],"RB conditions stated on the node heap; search bounded by 2*log2(n+1) nodes")
c("C03","proved",["C03_rbtree_navigation","C03_rbtree_iterator"],"callback is a state-passing function that does not itself touch the tree")
c("C04","proved",["C04_rbtree_find_cover"],"")
c("C05","partial",["C05_int_cmp_refuted","C05_int_cmp_not_transitive_refuted","C05_int_cmp_partial","C05_int_cmp_equality"],"full claim is false of the code (subtraction overflow); true when the difference fits in int")
c("C06","proved",["C06_krw_fifo","C06_krw_in_out"],"every program of writes, window fills, appends, peeks, consumes and reads; buffers returned by krw_get_write_buffer are used before the next call")
c("C07","partial",["C07_krw_read_refuted","C07_krw_read_exact_partial","C07_read_success_flag_refuted"],"false of the code when an empty chunk lies in front of data; exact for all programs that never create one")
c("C08","partial",["C08_krw_insert_refuted","C08_krw_insert_partial"],"false of the code on a partially read first chunk; true when the read position is at a chunk start")
c("C09","proved",["C09_ks_buffer"],"write programs then switch to reading; int overflow of sizes not modelled")
c("C10","proved",["C10_kbuf_seek","C10_iovec_seek","C10_seek_past_end"],"")
c("C11","proved",["C11_mutex_bound","C11_mutex_exclusive"],"every schedule of lock/try_lock/unlock/resume with a fixed limit")
c("C12","proved",["C12_mutex_state","C12_mutex_trylock","C12_mutex_handover","C12_no_stranded_waiter","C12_mutex_lifo","C12_set_limit_refuted"],"proved for a fixed limit; C12_set_limit_refuted: raising the limit while fibers wait leaves a waiter although a slot is free")
c("C13","partial",["C13_lock2_refuted","C13_lock2_count_refuted","C13_lock2_slots_partial"],"false of the code: lock2 does not count, so unlock asserts; the slot bound still holds without asserts")
c("C14","proved",["C14_rwlock_exclusion"],"")
c("C15","proved",["C15_rwlock_free_no_waiter","C15_rwlock_reader_admission","C15_rwlock_wunlock_wakes","C15_rwlock_runlock_wakes"],"")
c("C16","partial",["C16_wunlock_refuted","C16_wunlock_partial"],"false of the code: a reader resumed synchronously under the lock self-deadlocks when it unlocks")
c("C17","proved",["C17_auto_reset_counts","C17_auto_notice","C17_auto_wait","C17_auto_no_lost_notice"],"")
c("C18","proved",["C18_latch_closed","C18_latch_open","C18_notice_releases_all"],"")
c("C19","partial",["C19_wait_value_refuted","C19_wait_value_manual_refuted","C19_wait_value_partial"],"false of the code when the notice precedes the wait; true for suspended waiters")
c("C20","proved",["C20_chan_exactly_once","C20_chan_safe","C20_chan_message","C20_chan_one_side"],"multiset conservation over all schedules; deferred senders are woken by the receiver with code 0")
c("C21","proved",["C21_close_releases","C21_closed_forever","C21_resume_code"],"")
c("C22","partial",["C22_fifo_refuted","C22_chan_lifo_partial"],"false of the code: waiters form a stack (LIFO)")
c("C23","proved",["C23_switch_safe","C23_switch_chain","C23_switch_back","C23_resume_value","C23_suspended_stays"],"context switch primitive trusted; wake-ups go to suspended fibers or the caller itself")
c("C24","proved",["C24_fiber_safe","C24_fiber_freed_once","C24_fiber_count","C24_join_value","C24_join_released","C24_more_handles","C24_join2_value_refuted","C24_two_refs_refuted","C24_two_exit_callbacks_refuted"],"limits shown by the refuted theorems: join2 after exit reports 0; two kfiber_ref_self handles / exit callbacks on a handle-less fiber")
c("C25","proved",["C25_timers","C25_each_once"],"pointer-level tree plus chains; every malloc behaviour, every history, callbacks may add timers")
c("C26","partial",["C26_fifo_refuted","C26_exact_order_partial"],"false of the code: equal deadlines fire newest first; the exact order is proved")
c("C27","proved",["C27_clock_jump","C27_adjust","C27_same_second_refuted","C27_forward_refuted"],"timers; idle stamps in C28 theorems; limits (jump inside a second, forward jump) shown by counterexample")
c("C38","proved",["C38_klist","C38_klist_footprint","C38_clear"],"pointer level, any number of lists in one heap")
c("C52","partial",["C52_forward_add","C52_forward_append_refuted","C52_forward_remove","C52_forward_init","C52_forward_walk"],"false of the code: kforward_list_append puts the new item first; removal and everything else holds")
c("C28","proved",["C28_not_early","C28_not_missed","C28_read_timeout_stays","C27_idle_stamps","C28_same_second_refuted"],"every history, any callbacks; limit: an uncompensated backward step within a second can make a pass miss a connection")
c("C29","proved",["C29_bookkeeping","C29_no_assertion","C29_can_close","C29_add","C29_remove"],"lists as sequences (pointer level: C38)")
c("C30","proved",["C30_safe","C30_exactly_once","C30_readable","C30_all_run"],"all interleavings of any number of posting threads with the selector; eventfd counter unbounded")
c("C31","partial",["C31_order_refuted","C31_newest_first_partial","C31_spaced_order_partial"],"false of the code: the queue is a stack; the exact order, and order when posts are spaced, are proved")
c("C32","proved",["C32_safe","C32_exactly_once","C32_trace","C32_rejected","C32_order","C32_not_stranded","C32_all_executed","C32_blocked","C32_start_failure_refuted"],"all interleavings with fixed limits and successful thread starts; C32_start_failure_refuted: a failed start is undefined behaviour")
c("C33","proved",["C33_limits","C33_lifetime"],"")
c("C34","partial",["C34_capacity_refuted","C34_capacity_partial"],"false of the code: > instead of >=, so max_queue+1 jobs can be queued; bound max_queue+1 proved")
c("C35","partial",["C35_blocks_disjoint_partial","C35_alignment_partial","C35_contents_partial","C35_unaligned_size_refuted"],"proved for every pool size that is a multiple of 8 (at least 64), all histories incl. reset, pfree, arrays; false for other sizes: kgl_palloc can return memory behind the pool")
c("C36","proved",["C36_destroy","C36_reset","C36_records_distinct","C36_insert_once"],"all histories on one pool; all system memory given back exactly once, no read of freed records")
c("C37","partial",["C37_array_contents_partial","C37_push_room_partial","C37_push_succeeds_partial","C37_zero_capacity_refuted"],"proved for initial capacity and element size >= 1; false for capacity 0")
c("C39","proved",["C39_net_write_full","C39_net_read_full","C39_file_read_full","C39_file_write_full","C39_sendfile_full"],"every loop, every sequence of partial results of the underlying call")
c("C40","partial",["C40_writev_full_partial","C40_trailing_empty_refuted"],"holds if the array does not end in an empty buffer; the refuted theorem shows that with a trailing empty buffer the loop does not report completion")
c("C41","proved",["C41_writev","C41_writev_all","C41_readv","C41_early_error_refuted"],"C41_early_error_refuted documents a limit beyond the property: in early-data mode an error with nothing transferred is reported as 0")
c("C42","partial",["C42_direct_read_partial","C42_eof_refuted","C42_eof_ndebug"],"holds for every read that delivers at least one byte at the offset; at end of file the code aborts on an assertion (C42_eof_refuted), without assertions it returns 0 or -1")
c("C43","partial",["C43_pow2","C43_by_index","C43_perfect","C43_round_robin","C43_grow","C43_race_refuted"],"complete if the loads do not change during the call; with concurrent changes the assertion can be reached (C43_race_refuted)")
c("C44","partial",["C44_ipaddr_zero","C44_addr_zero","C44_addr_hash","C44_ipaddr_order_partial","C44_addr_order_partial","C44_addr_order_low_partial","C44_cpp_order","C44_cycle_refuted","C44_antisym_refuted","C44_cpp_hash_refuted"],"equality proved for all addresses; the order proved for IPv6 and for IPv4 words less than 2^31 apart; false for IPv4 in general (subtraction of ints overflows). The C++ operator< is a strict total order")
c("C45","proved",["C45_exclusion","C45_free","C45_writer_preference","C45_no_deadlock"],"fewer than 2^31-1 threads")
c("C46","partial",["C46_no_stranded_partial","C46_notice_wait","C46_no_return_without_notice_partial","C46_auto_two_partial","C46_single_waiter_partial","C46_returns_partial","C46_reset","C46_notice_try","C46_two_releases_refuted","C46_lost_notice_refuted","C46_manual_refuted","C46_spurious_refuted"],"the full claim is false; proved: no stranded waiter, no return without notice if there is no spurious wakeup, one return per notice with a single waiting thread")
c("C53","partial",["C53_set_timeout_partial","C53_default","C53_grow_refuted","C53_overflow_refuted"],"true without growing and for values whose milliseconds fit an int; refuted otherwise")
c("C50","proved",["C50_safe","C50_counters","C50_exactly_once","C50_flush","C50_order","C50_end","C50_foreign_signal_refuted","C50_negative_min_refuted"],"schedules without foreign SIGUSR2 and with a non-negative minimum; the two refuted theorems show that both conditions are needed")
c("C47","partial",["C47_safe_partial","C47_refs_partial","C47_once_partial","C47_progress_partial","C47_origin_partial","C47_one_resolver_partial","C47_count_partial","C47_cached_partial","C47_flush_partial","C47_last_good","C47_refresh_pending_refuted","C47_answer_race_refuted","C47_cname_refuted"],"proved for all schedules that avoid two races; both races are shown reachable (refuted) and crash: a refresh job ending while its entry is pending again, and a refresh/flush between publishing an entry and handing out its answers; kgl_addr_cname never requests the canonical name")
c("C48","partial",["C48_safe_partial","C48_freed_partial","C48_ssl_ctx_partial","C48_close_partial","C48_windown_partial","C48_ssl_update_refuted","C48_stale_close_refuted"],"proved for all schedules in which a posted ssl_ctx update does not run after its listener was destroyed; that race is shown reachable (use after free), and kserver_close may shut down an already closed descriptor")
c("C51","partial",["C51_starvation_refuted","C51_bounded_partial","C51_quiet_partial"],"The claim is false: waiters are a stack, an infinite schedule starves one fiber while the lock is granted infinitely often. True part: a waiting fiber is served after at most (fibers queued in front + fibers that began to wait since) unlocks.")
c("C49","partial",["C49_safe_partial","C49_once_partial","C49_read_value","C49_read_served_partial","C49_write_served_partial","C49_hup_served_partial","C49_hup_only_partial","C49_listed_partial","C49_ctl_fail_refuted","C49_next_read_refuted","C49_next_write_refuted","C49_read_timeout_refuted","C49_late_readhup_refuted","C49_readhup_dropped_refuted","C49_half_close_refuted","C49_stale_ready_refuted"],"Proved for callers that keep the rules (one read and one write at a time, no selectable_next_write, next_read only on registered sockets) without a read timeout; liveness also needs epoll_ctl not to fail. The refuted theorems show the code fails the property outside these conditions.")
c("C54","proved",["C54_protocols","C54_default"],"every byte string; strdup assumed to succeed")
c("C55","partial",["C55_safe_partial","C55_once_partial","C55_handshake_partial","C55_shutdown_partial","C55_early","C55_session","C55_timeout_refuted","C55_timeout_uaf_refuted","C55_timeout_close_refuted"],"proved for all schedules without a read timeout during handshake and close; with STF_RTIME_OUT set the timeout callback restarts the handshake while the read is registered (assertion failure, or use of the freed handshake record)")
c("C56","proved",["C56_no_crash","C56_returns_once","C56_own_result","C56_own_registration","C56_not_forgotten","C56_retry_other_buffer_refuted","C56_sleep_after_timeout_refuted","C56_close_after_timeout_refuted","C56_exit_after_timeout_refuted","C56_two_readers_refuted"],"for programs that keep the stated duties (spec: calls/rets/permitted over the schedule); the refuted theorems show each duty is needed: a read timeout leaves the request registered")
c("C57","partial",["C57_no_crash","C57_returns_once","C57_own_result","C57_not_forgotten","C57_drained","C57_requests_live","C57_pipes","C57_pipe_fail_refuted","C57_second_entry_refuted","C57_stale_buffer_refuted","C57_select_refuted","C57_file_error_refuted"],"complete for all schedules in which pipe2 and the second/timeout entry do not fail and a sendfile socket was not used for buffer-less write waits; each excluded case is shown to break the claim (refuted theorems), and sendfile hides an error of the file side")
c("C58","proved",["C58_no_crash","C58_runs_once","C58_returns_once","C58_caller_sleeps","C58_not_forgotten","C58_drained"],"The pool (C50), the notice queue (C30/C31) and the fiber switch (C23) are used through what their own theorems say.")
c("C59","partial",["C59_out_stream","C59_in_stream","C59_write_result","C59_read_result","C59_once","C59_no_leak","C59_safe_partial","C59_write_progress","C59_write_bound","C59_write_completes","C59_read_progress","C59_alert_refuted","C59_err_refuted","C59_engine_output_refuted","C59_eof_refuted"],"Byte streams, results and progress are proved for all runs. Freedom of failed assertions only as long as the engine writes nothing while an empty write is queued and no error event comes then: without these the code asserts (refuted theorems); engine output produced while no write is open stays unsent, and a read can loop for ever after the end of stream.")
c("C60","proved",["C60_replace_node","C60_find2"],"RbReplace.v; the old node is freed after the replacement, so any later access to it would fail in the model")
c("C61","partial",["C61_safe_partial","C61_once_partial","C61_value_partial","C61_read_served_partial","C61_write_served_partial","C61_listed_partial","C61_unlisted_partial","C61_kevent_fail_refuted","C61_connect_retry_refuted","C61_sendfile_fail_refuted","C61_refused_connect_refuted","C61_sendfile_error_refuted","C61_read_timeout_refuted","C61_next_read_refuted"],"all schedules of callers keeping the rules `normal` (no second read/write while one is pending, sendfile only where its registration and first transfer do not fail, next_read only on a registered socket, no read timeout); the served theorems also need every kevent change accepted. The refuted theorems show the unrestricted claim fails without each rule.")
c("C62","partial",["C62_safe_partial","C62_once","C62_order","C62_served","C62_closed","C62_result","C62_no_timeout","C62_refused","C62_two_accepts_refuted","C62_kqueue_close_refuted"],"everything is proved for both backends, except that on kqueue the program must also not destroy a listener while the notice of kserver_close has it in the ready list (otherwise use after free: C62_kqueue_close_refuted)")
c("C63","proved",["C63_safe", "C63_order", "C63_exactly_once", "C63_wakeup", "C63_all_run", "C63_fifo_refuted", "C63_trigger_failure_refuted"],"Refuted variants: posting order inside a batch; wake-up after a failed kevent.")
c("C64","partial",["C64_safe_partial", "C64_once", "C64_result", "C64_position", "C64_tell", "C64_contents", "C64_wakeup", "C64_no_spin", "C64_returns", "C64_sequential", "C64_direct_eof_refuted", "C64_direct_error_refuted", "C64_shared_refuted", "C64_block64k_refuted"],"Absence of aborts needs the program's duties (one operation per file at a time, aligned direct buffers) and, with assertions compiled in, that direct operations meet neither end of file nor an error: the code asserts otherwise (refuted theorems).")
c("C65","partial",["C65_memory", "C65_disjoint", "C65_delayed_disjoint", "C65_fresh", "C65_realloc", "C65_frame", "C65_malloc", "C65_realloc_returns", "C65_free_detects", "C65_realloc_detects", "C65_no_false_alarm", "C65_safe_partial", "C65_noleak", "C65_nodelay", "C65_released", "C65_drop_checked", "C65_not_early", "C65_uaf_detected", "C65_leak_report", "C65_realloc_in_dump_refuted", "C65_free_in_dump_refuted", "C65_calloc_overflow_refuted", "C65_huge_refuted", "C65_restart_refuted"],"The duties exclude what the code gets wrong, each shown by a refuted theorem: guarded blocks freed or reallocated while leaks are being listed, calloc products over 2^64 (the claim is about the wrapped size), sizes within 16 bytes of 2^64, a second start_hook_alloc. The nodes of the bucket lists are not in the modelled memory; the C library's malloc does not fail (the code aborts).")
c("C66","partial",["C66_once", "C66_order", "C66_value", "C66_next_value", "C66_kernel_once", "C66_fail", "C66_not_forgotten", "C66_drain", "C66_progress", "C66_finite", "C66_supervised", "C66_unlisted", "C66_next_order", "C66_next_memory", "C66_sockets", "C66_safe_partial", "C66_next_refuted", "C66_accept_refuted", "C66_udp_refuted"],"Unrestricted the claim is false of the code: next whose PostQueuedCompletionStatus fails is dropped without callback (C66_next_refuted); accept retries for ever inside the selector thread when no socket can be made (C66_accept_refuted); a UDP receive without packet information leaves the kernel a pointer to a dead stack variable (C66_udp_refuted). The safety theorem is stated for UDP with packet information, the drain theorem outside the accept loop.")
c("C67","partial",["C67_safe_partial", "C67_content_partial", "C67_make", "C67_count", "C67_lifetime", "C67_no_leak", "C67_freed_by_last", "C67_refs", "C67_null", "C67_progress", "C67_nul_refuted", "C67_long_refuted", "C67_no_memory_refuted", "C67_limit_refuted", "C67_wrap_refuted"],"The rules of use exclude what the code gets wrong, each shown by a refuted theorem: kstring_from2 of bytes containing a 0 (length says more than was allocated), strings of 2^32 bytes or more, failing allocations, 0xfffffff or more references.")
c("C68","partial",["C68_safe_partial", "C68_once", "C68_thread_init", "C68_initialised", "C68_refused", "C68_not_early", "C68_served", "C68_timer_served", "C68_destroy", "C68_close_hangs", "C68_register_race_refuted", "C68_init_race_refuted", "C68_close_early_refuted", "C68_close_loses_refuted", "C68_after_close_refuted", "C68_order_refuted"],"The rules of use exclude what the code gets wrong, each shown by a refuted theorem: registrations by several threads before selector_manager_init, or by another thread during it; closing before every selector thread has begun or while notices wait; using the manager after closing. Without MALLOCDEBUG selector_manager_close never returns (C68_close_hangs).")
c("C69","proved",["C69_safe", "C69_open", "C69_rights", "C69_read", "C69_write", "C69_who_changes", "C69_append", "C69_read_all", "C69_read_all_exact", "C69_read_all_ends", "C69_read_all_none", "C69_seek", "C69_size", "C69_time", "C69_exec", "C69_portable", "C69_temp_windows", "C69_inherit_refuted", "C69_inherit_windows_refuted", "C69_time_windows_refuted", "C69_temp_refuted", "C69_interrupt_refuted", "C69_shared_refuted"],"The file system is a model of the operating system's (no links, permissions, renaming). The refuted theorems show what is outside the claim: kfile_close_on_exec, kftime on Windows, KFILE_TEMP_MODEL on POSIX, EINTR during kfread_all, a handle shared by two kfread_all.")
c("C70","proved",["C70_safe", "C70_calls", "C70_no_leak", "C70_owner", "C70_progress", "C70_demo", "C70_timeout_refuted", "C70_inherit_refuted", "C70_unlink_refuted", "C70_option_refuted"],"POSIX branches. The refuted theorems show what is outside the claim: the timeout of ksocket_connect, inheritance without SOCK_CLOEXEC, the race of stat and unlink, options that could not be set. Not modelled: Windows branches, ksocket_bind_af and the address text functions.")
c("C71","partial",["C71_safe_partial", "C71_exact", "C71_refs", "C71_once", "C71_destroy", "C71_one_each", "C71_address", "C71_given", "C71_who", "C71_destroys", "C71_null", "C71_all_gone", "C71_demo", "C71_accept_unix_refuted", "C71_new3_unix_refuted", "C71_reconnect_refuted"],"Proved for programs that do not accept on UNIX servers, give UNIX addresses only to kconnection_new and connect a connection once; the code violates the claim otherwise (the `_refuted` theorems). malloc does not fail; OpenSSL is an oracle.")
c("C72","partial",["C72_safe_partial", "C72_once", "C72_result", "C72_rejected", "C72_exec", "C72_contents", "C72_tell", "C72_read", "C72_write", "C72_records", "C72_helpers", "C72_workers", "C72_reuse", "C72_overwrite", "C72_measure", "C72_live", "C72_demo", "C72_demo_keeps", "C72_shared_refuted", "C72_eof_refuted", "C72_thread_refuted", "C72_close_refuted", "C72_seek_end_refuted"],"Proved for programs that use each handle for one call at a time; the code violates the claim otherwise (the `_refuted` theorems). Worker pool, fiber creation/join and messages as proved in C32, C24, C30; direct I/O with workers is not modelled.")
c("C73","partial",["C73_server", "C73_server_works", "C73_server2_safe_partial", "C73_certificate_partial", "C73_client", "C73_demo_server", "C73_demo_one_file", "C73_demo_mismatch", "C73_demo_data", "C73_demo_passwords", "C73_demo_good", "C73_leak_refuted", "C73_failed_leak_refuted", "C73_null_refuted", "C73_truncated_refuted", "C73_empty_passwords_refuted", "C73_no_sid_refuted"],"Full for kgl_ssl_ctx_new_server and kgl_ssl_ctx_new_client. kgl_ssl_certificate leaks its X509 object on every success and on most failures, so for it and kgl_ssl_ctx_new_server2 the theorem bounds the leak by one object per call (the code violates the rest: `_refuted`). OpenSSL is trusted to follow its documented ownership rules.")
c("C74","proved",["C74_select", "C74_runs", "C74_objects", "C74_context", "C74_refused", "C74_nosni", "C74_first_name", "C74_alpn", "C74_demo_offers", "C74_demo", "C74_twice_refuted", "C74_switch_refuted"],"OpenSSL's order of callbacks is trusted. `_refuted`: a callback that names a context but returns no object is asked once by each callback, and again with every later ClientHello, which can change the context of a running connection.")
c("C75","proved",["C75_resume", "C75_start", "C75_return_exits", "C75_create_returns", "C75_switch_memory", "C75_create_memory", "C75_stack_kept", "C75_stack_size", "C75_stack_block", "C75_stack_size_refuted", "C75_example", "C75_stack_protector_refuted", "C75_shadow_stack_refuted"],"User code is assumed not to overflow its stack and not to write below the stack pointer of a fiber that is not running. `_refuted`: the optional builds with BOOST_CONTEXT_TLS_STACK_PROTECTOR and with CET shadow stacks are broken; stack sizes are rounded down to pages.")
c("C76","partial",["C76_order", "C76_arrived", "C76_delivered", "C76_failed_partial", "C76_once", "C76_progress_partial", "C76_uring_bio_refuted", "C76_interrupted_refuted", "C76_ipv6_recvaddr_refuted", "C76_unset_recvaddr_refuted", "C76_example"],"The unrestricted claim is false of the code: `_refuted` theorems. `_partial`: not for io_uring built with ENABLE_KSSL_BIO; progress only if no recvmsg was interrupted (EINTR). Local addresses are proved for IPv4 only: on IPv6 they are never available.")
c("C77","partial",["C77_result", "C77_position", "C77_tell", "C77_contents", "C77_once", "C77_safe_partial", "C77_unlisted_partial", "C77_returns_partial", "C77_failed_submit_refuted", "C77_woken_twice_refuted", "C77_darwin_refuted", "C77_example"],"The unrestricted claim is false of the code: `_refuted` theorems. `_partial`: for runs in which no submission fails or all calls on the handle are of one kind; macOS (worker threads) is excluded: there every call returns -1.")
c("C78","partial",["C78_resume", "C78_start", "C78_return_exits", "C78_create_returns", "C78_no_fault", "C78_switch_memory", "C78_create_memory", "C78_stack_kept", "C78_fpcr_passed", "C78_fpcr_refuted", "C78_example"],"Proved as stated for the integer and d registers. Partial because the floating point control register is not kept: `C78_fpcr_refuted` (AAPCS64 asks for it, and the x86-64 version keeps its counterparts).")
c("C79","partial",["C79_exactly_once", "C79_never_blocks", "C79_notices_in_loop", "C79_safe_partial", "C79_armed_partial", "C79_wait_partial", "C79_all_run_partial", "C79_deaf_forever", "C79_rearm_refuted", "C79_poll_error_refuted", "C79_null_sqe_refuted", "C79_dead_frame_refuted", "C79_timespec", "C79_timespec_refuted", "C79_example"],"Partial: no loss, no crash and no endless wait are proved for kernels that take every submission and do not fail the poll; without that they are false of the code (`C79_rearm_refuted`, `C79_poll_error_refuted`, `C79_null_sqe_refuted`, `C79_dead_frame_refuted`). Timeouts above 2147 ms overflow (`C79_timespec_refuted`); the library's own loop passes at most 100.")
c("C80","partial",["C80_safe", "C80_exactly_once", "C80_all_executed", "C80_bound", "C80_lowered", "C80_raise_starts_nobody", "C80_raise_refuted", "C80_zero_refuted", "C80_example"],"Proved except the last clause, which is false: raising the limit starts no worker for jobs that already wait (`C80_raise_refuted`; with a limit of 0 before, they are stranded until the next submission, `C80_zero_refuted`). The unsynchronised writes are taken as atomic.")
c("C81","partial",["C81_exactly_once", "C81_thread", "C81_listener_alive_partial", "C81_multi", "C81_listener_alive_refuted", "C81_early_accept", "C81_keeps_listening_partial", "C81_rearmed", "C81_accept_error_refuted", "C81_closed_partial", "C81_closed_return", "C81_close_during_open_refuted", "C81_open_false", "C81_open_all_refuted", "C81_example"],"Exactly-once, the thread and the result of kserver_open are proved. Three clauses are false of the code: the data argument of a posted callback may be freed (`C81_listener_alive_refuted`; proved for callbacks on the listener's own selector), one failed accept or TLS object ends a listener for good (`C81_accept_error_refuted`; proved for runs without failures), a close while kserver_open runs is undone (`C81_close_during_open_refuted`; proved when no open is running). Sequentially consistent flags.")
c("C82","proved",["C82_word", "C82_alignment", "C82_refines", "C82_same_faults", "C82_two_aligned_refuted", "C82_example"],"This justifies the two separate fields of the tree model of C01–C05 and C60. That src/krbtree.c touches the word through these accessors only is by reading it.")
c("C83","proved",["C83_dict", "C83_string_cmp", "C83_string_case_cmp", "C83_tolower", "C83_file_cmp", "C83_total_order", "C83_tree", "C83_example"],"strcmp and strcasecmp are libc's: modelled as the C standard's unsigned-byte comparison and POSIX tolower of the C locale. In `C83_tree` a key is its string: the strings must not change while they are in the tree.")
c("C84","proved",["C84_meaning", "C84_sub_refuted", "C84_sum", "C84_tickets", "C84_last_reference", "C84_cas_once", "C84_wrap_refuted", "C84_example"],"Atomicity of the builtins is assumed; memory ordering is not modelled (katom_set is only an acquire barrier on GCC). katom_sub of the most negative value is undefined behaviour (`C84_sub_refuted`).")
c("C85","partial",["C85_pass", "C85_closed", "C85_register_same_pass", "C85_register_next_pass", "C85_no_use_after_free", "C85_close_next_refuted", "C85_close_itself", "C85_wait", "C85_no_selector", "C85_pass_ends", "C85_example", "C85_close_next_example"],"Partial: the code violates the unrestricted claim, a callback which closes the tick after its own makes the loop read freed memory (`C85_close_next_refuted`). Numbers of ticks are not reused, malloc may reuse an address. kselector_close_tick without a selector returns false and leaves the tick allocated.")
c("C86","partial",["C86_tracks", "C86_report", "C86_no_file", "C86_failed_alloc_refuted", "C86_failed_realloc_refuted", "C86_number_again_refuted", "C86_append", "C86_append_empty_refuted", "C86_quotes_partial", "C86_quotes_refuted", "C86_example", "C86_path_example"],"Partial: with failing allocations the report is wrong (`C86_failed_alloc_refuted`, `C86_failed_realloc_refuted`), appending an empty string reads uninitialised memory, of two adjacent quotation marks one stays. Trees are finite maps (C01); one event at a time; the difference of two request numbers does not overflow.")
c("C87","proved",["C87_summaries","C87_root_summary","C87_example","C87_needed"],"For every summary function and every legal sequence of rbtree_insert + rb_augment_insert and rb_augment_erase_begin + rbtree_remove + rb_augment_erase_end; the data word of a new node holds its key from the start; the operation of C87_root_summary is associative with a unit.")
c("C88","proved",["C88_krw_int", "C88_krw_int64", "C88_ks_int", "C88_ks_int64", "C88_unique", "C88_example", "C88_size_matters"],"Assumed: snprintf of the C library converts as the C standard says, int is 32 bits wide.")
json.dump({"claims":C},open('/verif/MANIFEST.json','w'),indent=1)
