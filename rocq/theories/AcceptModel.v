(** Model of a listening socket on the epoll and kqueue selectors: src/kepoll_selector.c:183-218 (epoll_selector_accept,
    epoll_selector_listen) and 369-416 (select), src/kkqueue_selector.c:111-153 (kqueue_selector_accept, kqueue_selector_listen)
    and 277-322 (select), src/kserver.c:25-46 (kselector_event_accept), 335-356 (kserver_selectable_destroy), 358-373
    (kserver_selectable_next_shutdown) and 374-401 (kserver_close), the ready loop src/kselector.c:237-268 with
    src/kselectable.c:411-424, 457-475 (read event without a buffer).

    The two backends run the same code but for three points, all given by the parameter [kq] (true: kqueue): epoll's listen marks
    the socket ready, so the first accept is tried before the socket is registered; closing wakes the epoll socket through the
    kernel, the kqueue socket through a notice; an accept on a shut down socket fails with another error.

    The callback's further requests are the user steps that follow.  The lifetime of the listener object and of the server is C48;
    what becomes of the accepted descriptor (TLS object, connection) is not modelled. *)
From Verif Require Export Lts Count.
Local Open Scope Z_scope.

(** the list of the selector the socket is in (C29) *)
Inductive lloc := LNone | LRw | LReady.
#[global] Instance lloc_dec : EqDecision lloc. Proof. solve_decision. Defined.

(** [rd rrdy rev et err]: STF_READ, STF_RREADY, STF_REV, STF_ET, STF_ERR; [arg]: the request in e[OP_WRITE].arg; [loc]: list.
    Kernel: [reg] registered for edge triggered reading, [pend] an edge is not yet reported, [bl] connections ready to be accepted,
    oldest first, [shut] the socket was shut down.
    [gone]: destroyed, memory given back.  History: [iss] accept requests taken, [done_] callbacks (request, connection or failure),
    [arr] connections that became ready, [lost] those that disappeared before being accepted (reset by the peer, or the socket was
    shut down or closed). *)
Record ls := mkls {
  rd : bool; rrdy : bool; rev : bool; et : bool; err : bool; arg : nat; loc : lloc; reg : bool; pend : bool; bl : list nat; shut : bool; gone : bool; iss : list nat; done_ : list (nat * option nat); arr : list nat; lost : list nat }.
Definition s_rd (v : bool) (s : ls) : ls := mkls v (rrdy s) (rev s) (et s) (err s) (arg s) (loc s) (reg s) (pend s) (bl s) (shut s) (gone s) (iss s) (done_ s) (arr s) (lost s).
Definition s_rrdy (v : bool) (s : ls) : ls := mkls (rd s) v (rev s) (et s) (err s) (arg s) (loc s) (reg s) (pend s) (bl s) (shut s) (gone s) (iss s) (done_ s) (arr s) (lost s).
Definition s_rev (v : bool) (s : ls) : ls := mkls (rd s) (rrdy s) v (et s) (err s) (arg s) (loc s) (reg s) (pend s) (bl s) (shut s) (gone s) (iss s) (done_ s) (arr s) (lost s).
Definition s_et (v : bool) (s : ls) : ls := mkls (rd s) (rrdy s) (rev s) v (err s) (arg s) (loc s) (reg s) (pend s) (bl s) (shut s) (gone s) (iss s) (done_ s) (arr s) (lost s).
Definition s_err (v : bool) (s : ls) : ls := mkls (rd s) (rrdy s) (rev s) (et s) v (arg s) (loc s) (reg s) (pend s) (bl s) (shut s) (gone s) (iss s) (done_ s) (arr s) (lost s).
Definition s_arg (v : nat) (s : ls) : ls := mkls (rd s) (rrdy s) (rev s) (et s) (err s) v (loc s) (reg s) (pend s) (bl s) (shut s) (gone s) (iss s) (done_ s) (arr s) (lost s).
Definition s_loc (v : lloc) (s : ls) : ls := mkls (rd s) (rrdy s) (rev s) (et s) (err s) (arg s) v (reg s) (pend s) (bl s) (shut s) (gone s) (iss s) (done_ s) (arr s) (lost s).
Definition s_reg (v : bool) (s : ls) : ls := mkls (rd s) (rrdy s) (rev s) (et s) (err s) (arg s) (loc s) v (pend s) (bl s) (shut s) (gone s) (iss s) (done_ s) (arr s) (lost s).
Definition s_pend (v : bool) (s : ls) : ls := mkls (rd s) (rrdy s) (rev s) (et s) (err s) (arg s) (loc s) (reg s) v (bl s) (shut s) (gone s) (iss s) (done_ s) (arr s) (lost s).
Definition s_bl (v : list nat) (s : ls) : ls := mkls (rd s) (rrdy s) (rev s) (et s) (err s) (arg s) (loc s) (reg s) (pend s) v (shut s) (gone s) (iss s) (done_ s) (arr s) (lost s).
Definition s_shut (v : bool) (s : ls) : ls := mkls (rd s) (rrdy s) (rev s) (et s) (err s) (arg s) (loc s) (reg s) (pend s) (bl s) v (gone s) (iss s) (done_ s) (arr s) (lost s).
Definition s_gone (v : bool) (s : ls) : ls := mkls (rd s) (rrdy s) (rev s) (et s) (err s) (arg s) (loc s) (reg s) (pend s) (bl s) (shut s) v (iss s) (done_ s) (arr s) (lost s).
Definition s_iss (v : list nat) (s : ls) : ls := mkls (rd s) (rrdy s) (rev s) (et s) (err s) (arg s) (loc s) (reg s) (pend s) (bl s) (shut s) (gone s) v (done_ s) (arr s) (lost s).
Definition s_done_ (v : list (nat * option nat)) (s : ls) : ls := mkls (rd s) (rrdy s) (rev s) (et s) (err s) (arg s) (loc s) (reg s) (pend s) (bl s) (shut s) (gone s) (iss s) v (arr s) (lost s).
Definition s_arr (v : list nat) (s : ls) : ls := mkls (rd s) (rrdy s) (rev s) (et s) (err s) (arg s) (loc s) (reg s) (pend s) (bl s) (shut s) (gone s) (iss s) (done_ s) v (lost s).
Definition s_lost (v : list nat) (s : ls) : ls := mkls (rd s) (rrdy s) (rev s) (et s) (err s) (arg s) (loc s) (reg s) (pend s) (bl s) (shut s) (gone s) (iss s) (done_ s) (arr s) v.

(** after listen (kepoll_selector.c:208-218: STF_RREADY is set; kkqueue_selector.c:140-153: it is not) *)
Definition ls_init (kq : bool) : ls := mkls false (negb kq) false false false 0 LNone false false [] false false [] [] [] [].

(** the user's callback e[OP_WRITE].result *)
Definition call (v : option nat) (s : ls) : ls := s_done_ (done_ s ++ [(arg s, v)]) s.

(** kepoll_selector.c:183-207, kkqueue_selector.c:111-139; [ok]: epoll_ctl / kevent succeeds.  A socket that is registered while
    connections are waiting has an edge at once. *)
Definition accept_ (ok : bool) (s : ls) : ls * bool :=
  let s := s_rd true s in
  if rrdy s then (s_loc LReady s, true) else
  if rev s then (s, true) else
  if ok then (s_rev true (s_et true (s_reg true (s_pend (bool_decide (bl s <> []) || shut s) s))), true)
  else (s_rd false (s_rev false (s_et false s)), false).

(** the system call accept; [fails]: it fails for some reason of its own (EMFILE, ECONNABORTED, ...) *)
Inductive ares := AConn (c : nat) | AErr | AAgain.
Definition sys_accept (kq fails : bool) (s : ls) : ls * ares :=
  if fails then (s, AErr) else
  if shut s then (s, if kq then AAgain else AErr) else
  match bl s with [] => (s, AAgain) | c :: l => (s_bl l s, AConn c) end.

(** kserver.c:26-46 kselector_event_accept *)
Definition event_accept (kq fails ok : bool) (s : ls) : ls :=
  let '(s, a) := sys_accept kq fails s in
  match a with
  | AConn c => call (Some c) s
  | AErr => call None s
  | AAgain =>
    if err s then call None s else
    let '(s, b) := accept_ ok (s_rrdy false s) in
    if b : bool then s else call None s
  end.

Inductive ev :=
| EAccept (i : nat) (ok : bool)   (* kserver_selectable_accept(ss, i) from the selector's thread *)
| EDestroy                        (* kserver_selectable_destroy *)
| EReport                         (* select reports the edge *)
| ETake (fails ok : bool)         (* the ready loop takes the socket, kselector.c:239-267 *)
| EClose                          (* kserver_close: the shutdown, or the notice kserver_selectable_next_shutdown *)
| KConn (c : nat)                 (* a connection becomes ready *)
| KReset (c : nat).               (* a ready connection is reset by its peer and disappears *)

(** output: the value accept returns *)
Definition step (kq : bool) (s : ls) (e : ev) : res ls bool :=
  match e with
  | EAccept i ok =>
    if gone s || bool_decide (i ∈ iss s) then Disabled else
    let '(s1, b) := accept_ ok (s_arg i s) in
    Ok (if b : bool then s_iss (iss s1 ++ [i]) s1 else s1) b
  | EDestroy =>                   (* kserver.c:335-356; the selector's lists are not looked at *)
    if gone s then Disabled else
    Ok (s_gone true (s_reg false (s_pend false (s_lost (lost s ++ bl s) (s_bl [] s))))) true
  | EReport =>                    (* kepoll_selector.c:386-411, kkqueue_selector.c:300-306 *)
    if negb (pend s) then Disabled else
    let s := s_rrdy true (s_pend false (if kq then s else s_err (err s || shut s) s)) in
    Ok (if rd s then s_loc LReady s else s) true
  | ETake fails ok =>
    if decide (loc s = LReady) then
      if gone s then Crash else
      let s := s_loc LNone s in
      if rrdy s && rd s then
        Ok (event_accept kq fails ok (if et s then s_rd false s else s)) true
      else Ok (if rd s && et s then s_loc LRw s else s) true
    else Disabled
  | EClose =>
    if gone s || shut s then Disabled else
    let s := s_shut true (s_lost (lost s ++ bl s) (s_bl [] s)) in
    Ok (if kq then s_loc LReady (s_rrdy true (s_err true s)) else s_pend (pend s || reg s) s) true
  | KConn c =>
    if gone s || shut s || bool_decide (c ∈ arr s) then Disabled else
    Ok (s_pend (pend s || reg s) (s_bl (bl s ++ [c]) (s_arr (arr s ++ [c]) s))) true
  | KReset c =>
    if bool_decide (c ∈ bl s) then Ok (s_lost (lost s ++ [c]) (s_bl (filter (fun d => d <> c) (bl s)) s)) true else Disabled
  end.
