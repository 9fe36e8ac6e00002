(** Model of one socket on the epoll selector: src/kepoll_selector.c:97-409 (read, write, sendfile, connect, readhup,
    remove, select), src/kselectable.c:290-560 (selectable_read_event, selectable_write_event, selectable_event_read,
    selectable_event_write, selectable_event_sendfile, selectable_next_read, selectable_next_write) and the ready loop
    src/kselector.c:239-268, with the kernel's edge-triggered epoll.

    Everything runs in the selector thread.  A step is one call of the user (made from a fiber or from a callback), one
    kernel event, or one stage of the loop; a callback's further requests are the user steps that follow.  A call
    contains at most one transfer attempt; a kernel event between the attempt and the following epoll_ctl has the same
    effect as one right after the call, so the call is one step.

    Modelled: plain TCP sockets (no SSL: then selectable_low_event_* and selectable_event_* agree; no UDP).
    Not modelled: the idle clock (a timeout may happen whenever the socket is in an idle list; C28 says when it does),
    kserver's accept path (C48), memory of the buffers (C41). *)
From Verif Require Export Lts Count.
Local Open Scope Z_scope.

(** the list the socket is in: selector->list[] of C29 *)
Inductive lloc := LNone | LConn | LRw | LReady.
#[global] Instance lloc_dec : EqDecision lloc. Proof. solve_decision. Defined.
(** kselector.c:252 [st_flags], the copy of the flags the ready loop works with *)
Record snap := mksn { n_rd : bool; n_wr : bool; n_hup : bool; n_et : bool; n_r : bool (* RREADY|RREADY2 *); n_w : bool (* WREADY|WREADY2 *) }.
(** where the ready loop is with this socket: not at it; before the write event; before the read event; before 261 *)
Inductive lpc := PIdle | PW (n : snap) | PR (n : snap) | PF (n : snap).

(** [rd wr hup sf rev wev et err rrdy wrdy rrdy2 wrdy2]: STF_READ, STF_WRITE, STF_RDHUP, STF_SENDFILE, STF_REV, STF_WEV, STF_ET,
    STF_ERR, STF_RREADY, STF_WREADY, STF_RREADY2, STF_WREADY2.  [er]/[ew]: the request (callback and argument) stored in
    e[OP_READ] / e[OP_WRITE], [bufr]/[bufw]: its buffer is not NULL.
    Kernel: [reg]: registered with epoll (IN and RDHUP interest; true: also OUT); [lin lout lhup]: now readable / writable /
    closed by the peer; [edge]: on epoll's ready list.
    Ghosts: [iss] requests accepted, [done_] callbacks made, [sup] readhup requests replaced by a later request, [shut] the
    idle timeout shut the socket down. *)
Record ep := mkep {
  rd : bool; wr : bool; hup : bool; sf : bool; er : nat; ew : nat; bufr : bool; bufw : bool;
  rev : bool; wev : bool; et : bool; err : bool; rrdy : bool; wrdy : bool; rrdy2 : bool; wrdy2 : bool;
  loc : lloc; pc : lpc; reg : option bool; lin : bool; lout : bool; lhup : bool; edge : bool;
  iss : list nat; done_ : list (nat * Z); sup : list nat; shut : bool }.
Definition s_rd (v : bool) (s : ep) : ep := mkep v (wr s) (hup s) (sf s) (er s) (ew s) (bufr s) (bufw s) (rev s) (wev s) (et s) (err s) (rrdy s) (wrdy s) (rrdy2 s) (wrdy2 s) (loc s) (pc s) (reg s) (lin s) (lout s) (lhup s) (edge s) (iss s) (done_ s) (sup s) (shut s).
Definition s_wr (v : bool) (s : ep) : ep := mkep (rd s) v (hup s) (sf s) (er s) (ew s) (bufr s) (bufw s) (rev s) (wev s) (et s) (err s) (rrdy s) (wrdy s) (rrdy2 s) (wrdy2 s) (loc s) (pc s) (reg s) (lin s) (lout s) (lhup s) (edge s) (iss s) (done_ s) (sup s) (shut s).
Definition s_hup (v : bool) (s : ep) : ep := mkep (rd s) (wr s) v (sf s) (er s) (ew s) (bufr s) (bufw s) (rev s) (wev s) (et s) (err s) (rrdy s) (wrdy s) (rrdy2 s) (wrdy2 s) (loc s) (pc s) (reg s) (lin s) (lout s) (lhup s) (edge s) (iss s) (done_ s) (sup s) (shut s).
Definition s_sf (v : bool) (s : ep) : ep := mkep (rd s) (wr s) (hup s) v (er s) (ew s) (bufr s) (bufw s) (rev s) (wev s) (et s) (err s) (rrdy s) (wrdy s) (rrdy2 s) (wrdy2 s) (loc s) (pc s) (reg s) (lin s) (lout s) (lhup s) (edge s) (iss s) (done_ s) (sup s) (shut s).
Definition s_er (v : nat) (s : ep) : ep := mkep (rd s) (wr s) (hup s) (sf s) v (ew s) (bufr s) (bufw s) (rev s) (wev s) (et s) (err s) (rrdy s) (wrdy s) (rrdy2 s) (wrdy2 s) (loc s) (pc s) (reg s) (lin s) (lout s) (lhup s) (edge s) (iss s) (done_ s) (sup s) (shut s).
Definition s_ew (v : nat) (s : ep) : ep := mkep (rd s) (wr s) (hup s) (sf s) (er s) v (bufr s) (bufw s) (rev s) (wev s) (et s) (err s) (rrdy s) (wrdy s) (rrdy2 s) (wrdy2 s) (loc s) (pc s) (reg s) (lin s) (lout s) (lhup s) (edge s) (iss s) (done_ s) (sup s) (shut s).
Definition s_bufr (v : bool) (s : ep) : ep := mkep (rd s) (wr s) (hup s) (sf s) (er s) (ew s) v (bufw s) (rev s) (wev s) (et s) (err s) (rrdy s) (wrdy s) (rrdy2 s) (wrdy2 s) (loc s) (pc s) (reg s) (lin s) (lout s) (lhup s) (edge s) (iss s) (done_ s) (sup s) (shut s).
Definition s_bufw (v : bool) (s : ep) : ep := mkep (rd s) (wr s) (hup s) (sf s) (er s) (ew s) (bufr s) v (rev s) (wev s) (et s) (err s) (rrdy s) (wrdy s) (rrdy2 s) (wrdy2 s) (loc s) (pc s) (reg s) (lin s) (lout s) (lhup s) (edge s) (iss s) (done_ s) (sup s) (shut s).
Definition s_rev (v : bool) (s : ep) : ep := mkep (rd s) (wr s) (hup s) (sf s) (er s) (ew s) (bufr s) (bufw s) v (wev s) (et s) (err s) (rrdy s) (wrdy s) (rrdy2 s) (wrdy2 s) (loc s) (pc s) (reg s) (lin s) (lout s) (lhup s) (edge s) (iss s) (done_ s) (sup s) (shut s).
Definition s_wev (v : bool) (s : ep) : ep := mkep (rd s) (wr s) (hup s) (sf s) (er s) (ew s) (bufr s) (bufw s) (rev s) v (et s) (err s) (rrdy s) (wrdy s) (rrdy2 s) (wrdy2 s) (loc s) (pc s) (reg s) (lin s) (lout s) (lhup s) (edge s) (iss s) (done_ s) (sup s) (shut s).
Definition s_et (v : bool) (s : ep) : ep := mkep (rd s) (wr s) (hup s) (sf s) (er s) (ew s) (bufr s) (bufw s) (rev s) (wev s) v (err s) (rrdy s) (wrdy s) (rrdy2 s) (wrdy2 s) (loc s) (pc s) (reg s) (lin s) (lout s) (lhup s) (edge s) (iss s) (done_ s) (sup s) (shut s).
Definition s_err (v : bool) (s : ep) : ep := mkep (rd s) (wr s) (hup s) (sf s) (er s) (ew s) (bufr s) (bufw s) (rev s) (wev s) (et s) v (rrdy s) (wrdy s) (rrdy2 s) (wrdy2 s) (loc s) (pc s) (reg s) (lin s) (lout s) (lhup s) (edge s) (iss s) (done_ s) (sup s) (shut s).
Definition s_rrdy (v : bool) (s : ep) : ep := mkep (rd s) (wr s) (hup s) (sf s) (er s) (ew s) (bufr s) (bufw s) (rev s) (wev s) (et s) (err s) v (wrdy s) (rrdy2 s) (wrdy2 s) (loc s) (pc s) (reg s) (lin s) (lout s) (lhup s) (edge s) (iss s) (done_ s) (sup s) (shut s).
Definition s_wrdy (v : bool) (s : ep) : ep := mkep (rd s) (wr s) (hup s) (sf s) (er s) (ew s) (bufr s) (bufw s) (rev s) (wev s) (et s) (err s) (rrdy s) v (rrdy2 s) (wrdy2 s) (loc s) (pc s) (reg s) (lin s) (lout s) (lhup s) (edge s) (iss s) (done_ s) (sup s) (shut s).
Definition s_rrdy2 (v : bool) (s : ep) : ep := mkep (rd s) (wr s) (hup s) (sf s) (er s) (ew s) (bufr s) (bufw s) (rev s) (wev s) (et s) (err s) (rrdy s) (wrdy s) v (wrdy2 s) (loc s) (pc s) (reg s) (lin s) (lout s) (lhup s) (edge s) (iss s) (done_ s) (sup s) (shut s).
Definition s_wrdy2 (v : bool) (s : ep) : ep := mkep (rd s) (wr s) (hup s) (sf s) (er s) (ew s) (bufr s) (bufw s) (rev s) (wev s) (et s) (err s) (rrdy s) (wrdy s) (rrdy2 s) v (loc s) (pc s) (reg s) (lin s) (lout s) (lhup s) (edge s) (iss s) (done_ s) (sup s) (shut s).
Definition s_loc (v : lloc) (s : ep) : ep := mkep (rd s) (wr s) (hup s) (sf s) (er s) (ew s) (bufr s) (bufw s) (rev s) (wev s) (et s) (err s) (rrdy s) (wrdy s) (rrdy2 s) (wrdy2 s) v (pc s) (reg s) (lin s) (lout s) (lhup s) (edge s) (iss s) (done_ s) (sup s) (shut s).
Definition s_pc (v : lpc) (s : ep) : ep := mkep (rd s) (wr s) (hup s) (sf s) (er s) (ew s) (bufr s) (bufw s) (rev s) (wev s) (et s) (err s) (rrdy s) (wrdy s) (rrdy2 s) (wrdy2 s) (loc s) v (reg s) (lin s) (lout s) (lhup s) (edge s) (iss s) (done_ s) (sup s) (shut s).
Definition s_reg (v : option bool) (s : ep) : ep := mkep (rd s) (wr s) (hup s) (sf s) (er s) (ew s) (bufr s) (bufw s) (rev s) (wev s) (et s) (err s) (rrdy s) (wrdy s) (rrdy2 s) (wrdy2 s) (loc s) (pc s) v (lin s) (lout s) (lhup s) (edge s) (iss s) (done_ s) (sup s) (shut s).
Definition s_lin (v : bool) (s : ep) : ep := mkep (rd s) (wr s) (hup s) (sf s) (er s) (ew s) (bufr s) (bufw s) (rev s) (wev s) (et s) (err s) (rrdy s) (wrdy s) (rrdy2 s) (wrdy2 s) (loc s) (pc s) (reg s) v (lout s) (lhup s) (edge s) (iss s) (done_ s) (sup s) (shut s).
Definition s_lout (v : bool) (s : ep) : ep := mkep (rd s) (wr s) (hup s) (sf s) (er s) (ew s) (bufr s) (bufw s) (rev s) (wev s) (et s) (err s) (rrdy s) (wrdy s) (rrdy2 s) (wrdy2 s) (loc s) (pc s) (reg s) (lin s) v (lhup s) (edge s) (iss s) (done_ s) (sup s) (shut s).
Definition s_lhup (v : bool) (s : ep) : ep := mkep (rd s) (wr s) (hup s) (sf s) (er s) (ew s) (bufr s) (bufw s) (rev s) (wev s) (et s) (err s) (rrdy s) (wrdy s) (rrdy2 s) (wrdy2 s) (loc s) (pc s) (reg s) (lin s) (lout s) v (edge s) (iss s) (done_ s) (sup s) (shut s).
Definition s_edge (v : bool) (s : ep) : ep := mkep (rd s) (wr s) (hup s) (sf s) (er s) (ew s) (bufr s) (bufw s) (rev s) (wev s) (et s) (err s) (rrdy s) (wrdy s) (rrdy2 s) (wrdy2 s) (loc s) (pc s) (reg s) (lin s) (lout s) (lhup s) v (iss s) (done_ s) (sup s) (shut s).
Definition s_iss (v : list nat) (s : ep) : ep := mkep (rd s) (wr s) (hup s) (sf s) (er s) (ew s) (bufr s) (bufw s) (rev s) (wev s) (et s) (err s) (rrdy s) (wrdy s) (rrdy2 s) (wrdy2 s) (loc s) (pc s) (reg s) (lin s) (lout s) (lhup s) (edge s) v (done_ s) (sup s) (shut s).
Definition s_done_ (v : list (nat * Z)) (s : ep) : ep := mkep (rd s) (wr s) (hup s) (sf s) (er s) (ew s) (bufr s) (bufw s) (rev s) (wev s) (et s) (err s) (rrdy s) (wrdy s) (rrdy2 s) (wrdy2 s) (loc s) (pc s) (reg s) (lin s) (lout s) (lhup s) (edge s) (iss s) v (sup s) (shut s).
Definition s_sup (v : list nat) (s : ep) : ep := mkep (rd s) (wr s) (hup s) (sf s) (er s) (ew s) (bufr s) (bufw s) (rev s) (wev s) (et s) (err s) (rrdy s) (wrdy s) (rrdy2 s) (wrdy2 s) (loc s) (pc s) (reg s) (lin s) (lout s) (lhup s) (edge s) (iss s) (done_ s) v (shut s).
Definition s_shut (v : bool) (s : ep) : ep := mkep (rd s) (wr s) (hup s) (sf s) (er s) (ew s) (bufr s) (bufw s) (rev s) (wev s) (et s) (err s) (rrdy s) (wrdy s) (rrdy2 s) (wrdy2 s) (loc s) (pc s) (reg s) (lin s) (lout s) (lhup s) (edge s) (iss s) (done_ s) (sup s) v.

Definition ep_init : ep :=
  mkep false false false false 0 0 false false false false false false false false false false
    LNone PIdle None false false false false [] [] [] false.

(** what a system call on the socket returns: n bytes (and whether it is still readable / writable), or an error other
    than EAGAIN; EAGAIN is what the call gives on a socket that is not readable / writable *)
Inductive sysres := RGot (n : nat) (more : bool) | RFail.

(** the callback result(data, arg, v) of request i *)
Definition call (i : nat) (v : Z) (s : ep) : ep := s_done_ (done_ s ++ [(i, v)]) s.
(** a request is accepted; a readhup request that is still pending is dropped *)
Definition accept (i : nat) (s : ep) : ep :=
  s_iss (iss s ++ [i]) (s_sup (if hup s then sup s ++ [ew s] else sup s) s).

(** kepoll_selector.c:97-133 epoll_add_event(kdpfd, st, both ? STF_REV|STF_WEV : STF_REV); [ok]: epoll_ctl does not run out
    of resources.  The kernel refuses EPOLL_CTL_ADD of a registered and EPOLL_CTL_MOD of an unregistered descriptor; adding
    or modifying puts the descriptor on the ready list if it is ready. *)
Definition add_event (both ok : bool) (s : ep) : ep * bool :=
  let modify := wev s || (both && rev s) in
  let out := both || wev s in
  let s := s_wev (both || wev s) (s_rev true (s_et true (s_wrdy true s))) in
  if ok && Bool.eqb modify (match reg s with Some _ => true | None => false end) then
    (s_edge (edge s || lin s || lhup s || (out && lout s)) (s_reg (Some out) s), true)
  else (s, false).
(** include/kselectable.h:94-109 kselector_add_list *)
Definition add_list (l : lloc) (s : ep) : ep := s_loc l s.
(** "if (st->base.queue.next==NULL) kselector_add_list(selector,st,KGL_LIST_RW)" *)
Definition list_rw (s : ep) : ep := if decide (loc s = LNone) then add_list LRw s else s.

(** kepoll_selector.c:283-292: the part of epoll_selector_read after the readiness test *)
Definition wait_read (ok : bool) (s : ep) : ep :=
  if rev s then list_rw s else
  let '(s, r) := add_event false ok s in
  if r : bool then list_rw s else call (er s) (-1) (s_rd false s).
(** kepoll_selector.c:304-313, 329-338: the same of epoll_selector_write / epoll_selector_sendfile *)
Definition wait_write (ok : bool) (s : ep) : ep :=
  if wev s then list_rw s else
  let '(s, r) := add_event true ok s in
  if r : bool then list_rw s else call (ew s) (-1) (s_sf false (s_wr false s)).

(** readv / writev / sendfile on the socket; None: EAGAIN *)
Definition try_in (r : sysres) (s : ep) : ep * option Z :=
  match r with
  | RFail => (s, Some (-1))
  | RGot n more => if lin s then (s_lin (more || lhup s) s, Some (Z.of_nat n)) else (s, None)
  end.
Definition try_out (r : sysres) (s : ep) : ep * option Z :=
  match r with
  | RFail => (s, Some (-1))
  | RGot n more => if lout s then (s_lout more s, Some (Z.of_nat n)) else (s, None)
  end.

(** kselectable.c:457-475 selectable_read_event, 411-456 selectable_event_read, and the re-issued
    kgl_selector_module.read (kepoll_selector.c:273-282: its assertion and assignments; RREADY is clear).
    None: failed assertion. *)
Definition read_event (ok : bool) (r : sysres) (s : ep) : option ep :=
  let s := if et s then s_rd false s else s in
  let s := s_rrdy2 false s in
  if negb (bufr s) then Some (call (er s) 0 s) else
  let '(s, v) := try_in r s in
  match v with
  | Some v => Some (call (er s) v s)
  | None => if rd s then None else Some (wait_read ok (s_hup false (s_rd true (s_rrdy false s))))
  end.
(** kselectable.c:476-495 selectable_write_event, 354-410 selectable_event_write, 290-328 selectable_event_sendfile and the
    re-issued kgl_selector_module.write / sendfile (WREADY is clear) *)
Definition write_event (ok : bool) (r : sysres) (s : ep) : ep :=
  let f := sf s in
  let s := s_sf false (s_hup false (s_wr false s)) in
  if negb f && err s then call (ew s) (-1) s else
  let s := if f then s else s_wrdy2 false s in
  if negb (bufw s) then call (ew s) 0 s else
  let '(s, v) := try_out r s in
  match v with
  | Some v => call (ew s) v s
  | None => wait_write ok (s_sf f (s_wr true (s_wrdy false s)))
  end.

(** the flags as the ready loop copies them *)
Definition take_snap (s : ep) : snap := mksn (rd s) (wr s) (hup s) (et s) (rrdy s || rrdy2 s) (wrdy s || wrdy2 s).
(** kepoll_selector.c:203-217 epoll_selector_remove, up to its assertion *)
Definition remove (s : ep) : option ep :=
  if negb (rev s || wev s) then Some s else
  if rd s || wr s || hup s then None else
  Some (s_edge false (s_reg None (s_rev false (s_wev false (s_et false (s_rrdy false (s_wrdy false (s_loc LNone s)))))))).

Inductive ev :=
(** user calls; [i] names the request; [direct]: called from a fiber (the transfer is tried at once if the socket is marked ready);
    [buf]: the buffer is not NULL; [ok], [r]: what epoll_ctl and the transfer, if tried, give *)
| ERead (i : nat) (direct buf ok : bool) (r : sysres)               (* selectable_read *)
| EWrite (i : nat) (direct buf file ok : bool) (r : sysres)         (* selectable_write; file: sendfile *)
| EConnect (i : nat) (ok : bool)                                    (* kgl_selector_module.connect *)
| EReadhup (i : nat) (ok : bool) | ERemoveHup | ERemove             (* readhup, remove_readhup, remove *)
| ENextR (i : nat) | ENextW (i : nat)                               (* selectable_next_read / next_write *)
(** the loop *)
| EReport                                                           (* epoll_wait reports the socket: select 343-392 *)
| EPop | EWEv (ok : bool) (r : sysres) | EREv (ok : bool) (r : sysres) | EFin   (* kselector.c:239-252, 253-256, 257-260, 261-267 *)
| ETimeout                                                          (* kselector.c:158-199: the idle scan takes the socket *)
(** the kernel: data arrives, buffer space appears, the peer closes, a wakeup without change *)
| KIn | KOut | KHup | KSpur.

Definition busy (s : ep) : bool := match pc s with PW _ => true | _ => false end. (* no user code runs before the write event *)
Definition notify (s : ep) : ep := s_edge (edge s || match reg s with Some _ => true | None => false end) s.

(** [rto]: STF_RTIME_OUT is set on the socket.  Output: the value readhup returns. *)
Definition step (rto : bool) (s : ep) (e : ev) : res ep bool :=
  match e with
  | ERead i direct buf ok r =>                                      (* kepoll_selector.c:269-292 *)
    if busy s || bool_decide (i ∈ iss s) then Disabled else
    if rd s then Crash else
    let s := s_hup false (s_rd true (s_bufr buf (s_er i (accept i s)))) in
    if rrdy s then
      if direct then match read_event ok r s with None => Crash | Some s => Ok s true end
      else Ok (add_list LReady s) true
    else Ok (wait_read ok s) true
  | EWrite i direct buf file ok r =>                                (* kselectable.c:548-558, kepoll_selector.c:293-340 *)
    if busy s || bool_decide (i ∈ iss s) || (file && negb buf) then Disabled else
    if wr s || sf s || (negb file && wrdy2 s) then Crash else
    let s := s_sf file (s_hup false (s_wr true (s_bufw buf (s_ew i (accept i s))))) in
    if wrdy s then
      if direct then Ok (write_event ok r s) true
      else Ok (add_list LReady s) true
    else Ok (wait_write ok s) true
  | EConnect i ok =>                                                (* kepoll_selector.c:185-202 *)
    if busy s || bool_decide (i ∈ iss s) then Disabled else
    if rd s || wr s || hup s || rev s || wev s then Crash else
    let '(s1, r) := add_event true ok (s_wr true (s_bufw false (s_ew i s))) in
    if r : bool then Ok (add_list LConn (s_iss (iss s ++ [i]) s1)) true else Ok (s_wr false s1) false
  | EReadhup i ok =>                                                (* kepoll_selector.c:219-243 *)
    if busy s || bool_decide (i ∈ iss s) then Disabled else
    if rd s || wr s then Ok s false else
    let s := s_hup true (s_bufw false (s_ew i (accept i s))) in
    if rev s || wev s then Ok s true else
    let '(s, r) := add_event true ok s in
    if r : bool then Ok s true else Ok (s_sup (sup s ++ [i]) (s_hup false s)) false
  | ERemoveHup =>                                                   (* 244-258 *)
    if busy s then Disabled else
    if negb (hup s) then Ok s true else
    if rd s || wr s then Crash else
    match remove (s_sup (sup s ++ [ew s]) (s_hup false s)) with None => Crash | Some s => Ok s true end
  | ERemove =>
    if busy s then Disabled else match remove s with None => Crash | Some s => Ok s true end
  | ENextR i =>                                                     (* kselectable.c:496-506 *)
    if busy s || bool_decide (i ∈ iss s) then Disabled else
    if rd s || rrdy2 s then Crash else
    Ok (add_list LReady (s_hup false (s_rrdy2 true (s_rd true (s_bufr false (s_er i (accept i s))))))) true
  | ENextW i =>                                                     (* kselectable.c:507-517 *)
    if busy s || bool_decide (i ∈ iss s) then Disabled else
    if wr s || wrdy2 s then Crash else
    Ok (add_list LReady (s_hup false (s_wrdy2 true (s_wr true (s_bufw false (s_ew i (accept i s))))))) true
  | EReport =>                                                      (* kepoll_selector.c:343-392 *)
    match pc s, reg s with
    | PIdle, Some out =>
      if negb (edge s) then Disabled else
      let s := s_edge false s in
      let s := if lhup s && lin s then s_err true s else s in
      let '(s, ready) :=
        if lhup s then
          let s := s_wrdy true s in if wr s || hup s then (add_list LReady s, true) else (s, false)
        else if out && lout s then
          let s := s_wrdy true s in if wr s then (add_list LReady s, true) else (s, false)
        else (s, false) in
      let s := if lin s then
          let s := s_rrdy true s in if rd s && negb ready then add_list LReady s else s
        else s in
      Ok s true
    | _, _ => Disabled
    end
  | EPop => match pc s with
    | PIdle => if decide (loc s = LReady) then Ok (s_pc (PW (take_snap s)) (s_loc LNone s)) true else Disabled
    | _ => Disabled end
  | EWEv ok r => match pc s with
    | PW n => if n_w n && (n_wr n || n_hup n)
              then Ok (s_pc (PR (mksn (n_rd n) false false (n_et n) (n_r n) (n_w n))) (write_event ok r s)) true
              else Ok (s_pc (PR n) s) true
    | _ => Disabled end
  | EREv ok r => match pc s with
    | PR n => if n_r n && n_rd n
              then match read_event ok r s with
                   | None => Crash
                   | Some s => Ok (s_pc (PF (mksn false (n_wr n) (n_hup n) (n_et n) (n_r n) (n_w n))) s) true end
              else Ok (s_pc (PF n) s) true
    | _ => Disabled end
  | EFin => match pc s with
    | PF n => let s := s_pc PIdle s in
              Ok (if (n_rd n || n_wr n) && n_et n && bool_decide (loc s = LNone) then add_list LRw s else s) true
    | _ => Disabled end
  | ETimeout => match pc s with
    | PIdle => if decide (loc s = LRw \/ loc s = LConn) then
        if rto && rd s then Ok (call (er s) (-2) s) true
        else Ok (notify (s_shut true (s_loc LNone (s_lin true (s_lout true (s_lhup true s)))))) true
      else Disabled
    | _ => Disabled end
  | KIn => Ok (notify (s_lin true s)) true
  | KOut => let s := s_lout true s in Ok (match reg s with Some true => notify s | _ => s end) true
  | KHup => Ok (notify (s_lhup true (s_lin true s))) true
  | KSpur => Ok (notify s) true
  end.
