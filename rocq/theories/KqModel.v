(** Model of one socket on the kqueue selector (BSD, macOS): src/kkqueue_selector.c:51-70 (kqueue_add_event), 144-243 (connect,
    read, write, sendfile), 277-322 (select), 388-410 (remove), src/kselectable.c:141-163 (selectable_clean), 290-351
    (selectable_event_sendfile, its BSD branch), 354-517 (event_write, event_read, read_event, write_event, next_read,
    next_write), include/kselectable.h:109-124 and the ready loop src/kselector.c:237-268, with the kernel's kqueue filters
    EVFILT_READ and EVFILT_WRITE in EV_CLEAR mode.

    Everything runs in the selector thread.  A step is one call of the user (made from a fiber or from a callback), one
    kernel event, or one stage of the loop; a callback's further requests are the user steps that follow.

    Modelled: plain TCP sockets (no SSL, no UDP).  kqueue has no readhup (kselector_default_readhup, kselector.c:312), so
    STF_RDHUP is never set; nothing on this path ever sets STF_ERR.
    Not modelled: the idle clock (a timeout may happen whenever the socket is in an idle list; C28 says when it does), the
    accept path, AIO files, memory of the buffers (C41). *)
From Verif Require Export Lts Count.
Local Open Scope Z_scope.

(** the list the socket is in: selector->list[] of C29 *)
Inductive lloc := LNone | LConn | LRw | LReady.
#[global] Instance lloc_dec : EqDecision lloc. Proof. solve_decision. Defined.
(** e[OP_WRITE].buffer: NULL, a memory vector, or the pseudo vector of sendfile whose iov_base is a kasync_file *)
Inductive bkind := BNone | BMem | BFile.
(** kselector.c:252 [st_flags], the copy of the flags the ready loop works with *)
Record snap := mksn { n_rd : bool; n_wr : bool; n_et : bool; n_r : bool (* RREADY|RREADY2 *); n_w : bool (* WREADY|WREADY2 *) }.
(** where the ready loop is with this socket: not at it; before the write event; before the read event; before 261 *)
Inductive lpc := PIdle | PW (n : snap) | PR (n : snap) | PF (n : snap).

(** [rd wr sf rev wev et rrdy wrdy rrdy2 wrdy2]: STF_READ, STF_WRITE, STF_SENDFILE, STF_REV, STF_WEV, STF_ET, STF_RREADY,
    STF_WREADY, STF_RREADY2, STF_WREADY2.  [er]/[ew]: the request (callback and argument) stored in e[OP_READ] / e[OP_WRITE];
    [br]: the read buffer is not NULL; [bw]: the write buffer.
    Kernel: [kr]/[kw]: the read / write filter is registered; [pr]/[pw]: its event is pending; [lin]/[lout]: now readable /
    writable.  Ghosts: [iss] requests accepted, [done_] callbacks made, [shut] the idle timeout shut the socket down, [cl]
    closed (and its memory given back). *)
Record kq := mkkq {
  rd : bool; wr : bool; sf : bool; er : nat; ew : nat; br : bool; bw : bkind; rev : bool; wev : bool; et : bool; rrdy : bool; wrdy : bool; rrdy2 : bool; wrdy2 : bool; loc : lloc; pc : lpc; kr : bool; kw : bool; pr : bool; pw : bool; lin : bool; lout : bool; iss : list nat; done_ : list (nat * Z); shut : bool; cl : bool }.
Definition s_rd (v : bool) (s : kq) : kq := mkkq v (wr s) (sf s) (er s) (ew s) (br s) (bw s) (rev s) (wev s) (et s) (rrdy s) (wrdy s) (rrdy2 s) (wrdy2 s) (loc s) (pc s) (kr s) (kw s) (pr s) (pw s) (lin s) (lout s) (iss s) (done_ s) (shut s) (cl s).
Definition s_wr (v : bool) (s : kq) : kq := mkkq (rd s) v (sf s) (er s) (ew s) (br s) (bw s) (rev s) (wev s) (et s) (rrdy s) (wrdy s) (rrdy2 s) (wrdy2 s) (loc s) (pc s) (kr s) (kw s) (pr s) (pw s) (lin s) (lout s) (iss s) (done_ s) (shut s) (cl s).
Definition s_sf (v : bool) (s : kq) : kq := mkkq (rd s) (wr s) v (er s) (ew s) (br s) (bw s) (rev s) (wev s) (et s) (rrdy s) (wrdy s) (rrdy2 s) (wrdy2 s) (loc s) (pc s) (kr s) (kw s) (pr s) (pw s) (lin s) (lout s) (iss s) (done_ s) (shut s) (cl s).
Definition s_er (v : nat) (s : kq) : kq := mkkq (rd s) (wr s) (sf s) v (ew s) (br s) (bw s) (rev s) (wev s) (et s) (rrdy s) (wrdy s) (rrdy2 s) (wrdy2 s) (loc s) (pc s) (kr s) (kw s) (pr s) (pw s) (lin s) (lout s) (iss s) (done_ s) (shut s) (cl s).
Definition s_ew (v : nat) (s : kq) : kq := mkkq (rd s) (wr s) (sf s) (er s) v (br s) (bw s) (rev s) (wev s) (et s) (rrdy s) (wrdy s) (rrdy2 s) (wrdy2 s) (loc s) (pc s) (kr s) (kw s) (pr s) (pw s) (lin s) (lout s) (iss s) (done_ s) (shut s) (cl s).
Definition s_br (v : bool) (s : kq) : kq := mkkq (rd s) (wr s) (sf s) (er s) (ew s) v (bw s) (rev s) (wev s) (et s) (rrdy s) (wrdy s) (rrdy2 s) (wrdy2 s) (loc s) (pc s) (kr s) (kw s) (pr s) (pw s) (lin s) (lout s) (iss s) (done_ s) (shut s) (cl s).
Definition s_bw (v : bkind) (s : kq) : kq := mkkq (rd s) (wr s) (sf s) (er s) (ew s) (br s) v (rev s) (wev s) (et s) (rrdy s) (wrdy s) (rrdy2 s) (wrdy2 s) (loc s) (pc s) (kr s) (kw s) (pr s) (pw s) (lin s) (lout s) (iss s) (done_ s) (shut s) (cl s).
Definition s_rev (v : bool) (s : kq) : kq := mkkq (rd s) (wr s) (sf s) (er s) (ew s) (br s) (bw s) v (wev s) (et s) (rrdy s) (wrdy s) (rrdy2 s) (wrdy2 s) (loc s) (pc s) (kr s) (kw s) (pr s) (pw s) (lin s) (lout s) (iss s) (done_ s) (shut s) (cl s).
Definition s_wev (v : bool) (s : kq) : kq := mkkq (rd s) (wr s) (sf s) (er s) (ew s) (br s) (bw s) (rev s) v (et s) (rrdy s) (wrdy s) (rrdy2 s) (wrdy2 s) (loc s) (pc s) (kr s) (kw s) (pr s) (pw s) (lin s) (lout s) (iss s) (done_ s) (shut s) (cl s).
Definition s_et (v : bool) (s : kq) : kq := mkkq (rd s) (wr s) (sf s) (er s) (ew s) (br s) (bw s) (rev s) (wev s) v (rrdy s) (wrdy s) (rrdy2 s) (wrdy2 s) (loc s) (pc s) (kr s) (kw s) (pr s) (pw s) (lin s) (lout s) (iss s) (done_ s) (shut s) (cl s).
Definition s_rrdy (v : bool) (s : kq) : kq := mkkq (rd s) (wr s) (sf s) (er s) (ew s) (br s) (bw s) (rev s) (wev s) (et s) v (wrdy s) (rrdy2 s) (wrdy2 s) (loc s) (pc s) (kr s) (kw s) (pr s) (pw s) (lin s) (lout s) (iss s) (done_ s) (shut s) (cl s).
Definition s_wrdy (v : bool) (s : kq) : kq := mkkq (rd s) (wr s) (sf s) (er s) (ew s) (br s) (bw s) (rev s) (wev s) (et s) (rrdy s) v (rrdy2 s) (wrdy2 s) (loc s) (pc s) (kr s) (kw s) (pr s) (pw s) (lin s) (lout s) (iss s) (done_ s) (shut s) (cl s).
Definition s_rrdy2 (v : bool) (s : kq) : kq := mkkq (rd s) (wr s) (sf s) (er s) (ew s) (br s) (bw s) (rev s) (wev s) (et s) (rrdy s) (wrdy s) v (wrdy2 s) (loc s) (pc s) (kr s) (kw s) (pr s) (pw s) (lin s) (lout s) (iss s) (done_ s) (shut s) (cl s).
Definition s_wrdy2 (v : bool) (s : kq) : kq := mkkq (rd s) (wr s) (sf s) (er s) (ew s) (br s) (bw s) (rev s) (wev s) (et s) (rrdy s) (wrdy s) (rrdy2 s) v (loc s) (pc s) (kr s) (kw s) (pr s) (pw s) (lin s) (lout s) (iss s) (done_ s) (shut s) (cl s).
Definition s_loc (v : lloc) (s : kq) : kq := mkkq (rd s) (wr s) (sf s) (er s) (ew s) (br s) (bw s) (rev s) (wev s) (et s) (rrdy s) (wrdy s) (rrdy2 s) (wrdy2 s) v (pc s) (kr s) (kw s) (pr s) (pw s) (lin s) (lout s) (iss s) (done_ s) (shut s) (cl s).
Definition s_pc (v : lpc) (s : kq) : kq := mkkq (rd s) (wr s) (sf s) (er s) (ew s) (br s) (bw s) (rev s) (wev s) (et s) (rrdy s) (wrdy s) (rrdy2 s) (wrdy2 s) (loc s) v (kr s) (kw s) (pr s) (pw s) (lin s) (lout s) (iss s) (done_ s) (shut s) (cl s).
Definition s_kr (v : bool) (s : kq) : kq := mkkq (rd s) (wr s) (sf s) (er s) (ew s) (br s) (bw s) (rev s) (wev s) (et s) (rrdy s) (wrdy s) (rrdy2 s) (wrdy2 s) (loc s) (pc s) v (kw s) (pr s) (pw s) (lin s) (lout s) (iss s) (done_ s) (shut s) (cl s).
Definition s_kw (v : bool) (s : kq) : kq := mkkq (rd s) (wr s) (sf s) (er s) (ew s) (br s) (bw s) (rev s) (wev s) (et s) (rrdy s) (wrdy s) (rrdy2 s) (wrdy2 s) (loc s) (pc s) (kr s) v (pr s) (pw s) (lin s) (lout s) (iss s) (done_ s) (shut s) (cl s).
Definition s_pr (v : bool) (s : kq) : kq := mkkq (rd s) (wr s) (sf s) (er s) (ew s) (br s) (bw s) (rev s) (wev s) (et s) (rrdy s) (wrdy s) (rrdy2 s) (wrdy2 s) (loc s) (pc s) (kr s) (kw s) v (pw s) (lin s) (lout s) (iss s) (done_ s) (shut s) (cl s).
Definition s_pw (v : bool) (s : kq) : kq := mkkq (rd s) (wr s) (sf s) (er s) (ew s) (br s) (bw s) (rev s) (wev s) (et s) (rrdy s) (wrdy s) (rrdy2 s) (wrdy2 s) (loc s) (pc s) (kr s) (kw s) (pr s) v (lin s) (lout s) (iss s) (done_ s) (shut s) (cl s).
Definition s_lin (v : bool) (s : kq) : kq := mkkq (rd s) (wr s) (sf s) (er s) (ew s) (br s) (bw s) (rev s) (wev s) (et s) (rrdy s) (wrdy s) (rrdy2 s) (wrdy2 s) (loc s) (pc s) (kr s) (kw s) (pr s) (pw s) v (lout s) (iss s) (done_ s) (shut s) (cl s).
Definition s_lout (v : bool) (s : kq) : kq := mkkq (rd s) (wr s) (sf s) (er s) (ew s) (br s) (bw s) (rev s) (wev s) (et s) (rrdy s) (wrdy s) (rrdy2 s) (wrdy2 s) (loc s) (pc s) (kr s) (kw s) (pr s) (pw s) (lin s) v (iss s) (done_ s) (shut s) (cl s).
Definition s_iss (v : list nat) (s : kq) : kq := mkkq (rd s) (wr s) (sf s) (er s) (ew s) (br s) (bw s) (rev s) (wev s) (et s) (rrdy s) (wrdy s) (rrdy2 s) (wrdy2 s) (loc s) (pc s) (kr s) (kw s) (pr s) (pw s) (lin s) (lout s) v (done_ s) (shut s) (cl s).
Definition s_done_ (v : list (nat * Z)) (s : kq) : kq := mkkq (rd s) (wr s) (sf s) (er s) (ew s) (br s) (bw s) (rev s) (wev s) (et s) (rrdy s) (wrdy s) (rrdy2 s) (wrdy2 s) (loc s) (pc s) (kr s) (kw s) (pr s) (pw s) (lin s) (lout s) (iss s) v (shut s) (cl s).
Definition s_shut (v : bool) (s : kq) : kq := mkkq (rd s) (wr s) (sf s) (er s) (ew s) (br s) (bw s) (rev s) (wev s) (et s) (rrdy s) (wrdy s) (rrdy2 s) (wrdy2 s) (loc s) (pc s) (kr s) (kw s) (pr s) (pw s) (lin s) (lout s) (iss s) (done_ s) v (cl s).
Definition s_cl (v : bool) (s : kq) : kq := mkkq (rd s) (wr s) (sf s) (er s) (ew s) (br s) (bw s) (rev s) (wev s) (et s) (rrdy s) (wrdy s) (rrdy2 s) (wrdy2 s) (loc s) (pc s) (kr s) (kw s) (pr s) (pw s) (lin s) (lout s) (iss s) (done_ s) (shut s) v.

Definition kq_init : kq :=
  mkkq false false false 0 0 false BNone false false false false false false false
    LNone PIdle false false false false false false [] [] false false.

(** what a system call on the socket returns: n bytes (and whether it is still readable / writable), n bytes and EAGAIN
    (sendfile only), or an error other than EAGAIN with nothing transferred; EAGAIN with nothing transferred is what the call gives
    on a socket that is not readable / writable *)
Inductive sysres := RGot (n : nat) (more : bool) | RPart (n : nat) | RFail.

(** the callback result(data, arg, v) of request i *)
Definition call (i : nat) (v : Z) (s : kq) : kq := s_done_ (done_ s ++ [(i, v)]) s.

(** kkqueue_selector.c:51-70 kqueue_add_event: the first half (EVFILT_READ) and the second (EVFILT_WRITE); [ok]: the kernel
    accepts the change.  A filter that is added to a ready socket is pending at once.  kevent applies the changes in order up
    to the first that fails; the flags are set before it is called. *)
Definition add_r (ok : bool) (s : kq) : kq :=
  let s := s_rev true (s_et true (s_wrdy true s)) in
  if ok then s_kr true (s_pr (pr s || lin s) s) else s.
Definition add_w (ok : bool) (s : kq) : kq :=
  let s := s_wev true (s_et true s) in
  if ok then s_kw true (s_pw (pw s || lout s) s) else s.
(** STF_REV; STF_REV|STF_WEV.  Called only when something has to be added (the assertion of line 65). *)
Definition add_rd (okr : bool) (s : kq) : kq * bool := (add_r okr s, okr).
Definition add_rw (okr okw : bool) (s : kq) : kq * bool :=
  if rev s then (add_w okw s, okw) else (add_w (okr && okw) (add_r okr s), okr && okw).
(** include/kselectable.h:94-108 kselector_add_list *)
Definition add_list (l : lloc) (s : kq) : kq := s_loc l s.
(** "if (st->base.queue.next==NULL) kselector_add_list(selector,st,KGL_LIST_RW)" *)
Definition list_rw (s : kq) : kq := if decide (loc s = LNone) then add_list LRw s else s.

(** kkqueue_selector.c:176-186: the part of kqueue_selector_read after the readiness test *)
Definition wait_read (ok : bool) (s : kq) : kq :=
  if rev s then list_rw s else
  let '(s, r) := add_rd ok s in
  if r : bool then list_rw s else call (er s) (-1) (s_rd false s).
(** kkqueue_selector.c:200-209, 224-233: the same of kqueue_selector_write / kqueue_selector_sendfile *)
Definition wait_write (okr okw : bool) (s : kq) : kq :=
  if wev s then list_rw s else
  let '(s, r) := add_rw okr okw s in
  if r : bool then list_rw s else call (ew s) (-1) (s_wr false s).

(** readv; None: EAGAIN *)
Definition try_in (r : sysres) (s : kq) : kq * option Z :=
  match r with
  | RFail => (s, Some (-1))
  | RGot n more => if lin s then (s_lin more s, Some (Z.of_nat n)) else (s, None)
  | RPart n => if lin s then (s_lin false s, Some (Z.of_nat n)) else (s, None)
  end.
(** writev; None: EAGAIN *)
Definition try_out (r : sysres) (s : kq) : kq * option Z :=
  match r with
  | RFail => (s, Some (-1))
  | RGot n more => if lout s then (s_lout more s, Some (Z.of_nat n)) else (s, None)
  | RPart n => if lout s then (s_lout false s, Some (Z.of_nat n)) else (s, None)
  end.

(** kselectable.c:457-475 selectable_read_event, 411-456 selectable_event_read, and the re-issued kgl_selector_module.read
    (kkqueue_selector.c:163-175: its assertion and assignments; RREADY is clear).  None: failed assertion. *)
Definition read_event (ok : bool) (r : sysres) (s : kq) : option kq :=
  let s := if et s then s_rd false s else s in
  let s := s_rrdy2 false s in
  if negb (br s) then Some (call (er s) 0 s) else
  let '(s, v) := try_in r s in
  match v with
  | Some v => Some (call (er s) v s)
  | None => if rd s then None else Some (wait_read ok (s_rd true (s_rrdy false s)))
  end.
(** kselectable.c:476-495 selectable_write_event; 354-410 selectable_event_write with the re-issued kgl_selector_module.write
    (WREADY is clear); 329-349 selectable_event_sendfile (BSD) with the re-issued kgl_selector_module.sendfile, which finds
    WREADY still set when the error is not EAGAIN and then (include/kselectable.h:117-124) puts the socket back on the ready
    list in the selector's main fiber ([main]) and calls selectable_write_event again in any other.
    None: a buffer that is no file is used as a file, or unbounded recursion. *)
Definition write_event (main okr okw : bool) (r : sysres) (s : kq) : option kq :=
  if sf s then
    let s := s_sf false (s_wr false s) in
    match bw s with
    | BFile =>
      match r with
      | RFail => let s := s_sf true (s_wr true s) in
                 if wrdy s then if main then Some (add_list LReady s) else None
                 else Some (wait_write okr okw s)
      | RGot n more => if lout s then Some (call (ew s) (Z.of_nat n) (s_lout more s))
                       else Some (wait_write okr okw (s_sf true (s_wr true (s_wrdy false s))))
      | RPart n => if lout s then Some (call (ew s) (Z.of_nat n) (s_wrdy false (s_lout false s)))
                   else Some (wait_write okr okw (s_sf true (s_wr true (s_wrdy false s))))
      end
    | _ => None
    end
  else
    let s := s_wrdy2 false (s_wr false s) in
    match bw s with
    | BNone => Some (call (ew s) 0 s)
    | _ =>
      let '(s, v) := try_out r s in
      match v with
      | Some v => Some (call (ew s) v s)
      | None => Some (wait_write okr okw (s_wr true (s_wrdy false s)))
      end
    end.

(** the flags as the ready loop copies them *)
Definition take_snap (s : kq) : snap := mksn (rd s) (wr s) (et s) (rrdy s || rrdy2 s) (wrdy s || wrdy2 s).

Inductive ev :=
(** user calls; [i] names the request; [direct]: called from a fiber (the transfer is tried at once if the socket is marked
    ready); [buf]: the buffer is not NULL; [ok..], [r]: what kevent and the transfer, if tried, give *)
| ERead (i : nat) (direct buf ok : bool) (r : sysres)               (* selectable_read *)
| EWrite (i : nat) (direct : bool) (b : bkind) (okr okw : bool) (r : sysres)  (* selectable_write; BFile: selectable_sendfile *)
| EConnect (i : nat) (okr okw : bool)                               (* kgl_selector_module.connect *)
| EClose                                                            (* selectable_clean; the memory is given back *)
| ENextR (i : nat) | ENextW (i : nat)                               (* selectable_next_read / next_write *)
(** the loop: kevent reports the read / write filter (select 277-322); the stages of the ready loop; the idle scan *)
| EReportR | EReportW
| EPop | EWEv (okr okw : bool) (r : sysres) | EREv (ok : bool) (r : sysres) | EFin  (* kselector.c:239-252, 253-256, 257-260, 261-267 *)
| ETimeout                                                          (* kselector.c:158-199 *)
(** the kernel: data (or the end of the stream) arrives, buffer space appears (or the connection is made), the connection is
    refused (both filters fire, with EV_EOF, which select does not look at) *)
| KIn | KOut | KRefuse.

Definition busy (s : kq) : bool := match pc s with PW _ => true | _ => false end. (* no user code runs before the write event *)
(** a user call with request [i] makes sense: the socket is not closed, the name is new *)
Definition no_call (i : nat) (s : kq) : bool := busy s || cl s || bool_decide (i ∈ iss s).

(** [rto]: STF_RTIME_OUT is set on the socket.  Output: the value connect returns. *)
Definition step (rto : bool) (s : kq) (e : ev) : res kq bool :=
  match e with
  | ERead i direct buf ok r =>                                      (* kkqueue_selector.c:163-186 *)
    if no_call i s then Disabled else
    if rd s then Crash else
    let s := s_rd true (s_br buf (s_er i (s_iss (iss s ++ [i]) s))) in
    if rrdy s then
      if direct then match read_event ok r s with None => Crash | Some s => Ok s true end
      else Ok (add_list LReady s) true
    else Ok (wait_read ok s) true
  | EWrite i direct b okr okw r =>                                  (* kselectable.c:548-558, kkqueue_selector.c:187-234 *)
    if no_call i s then Disabled else
    if wr s || (match b with BFile => false | _ => wrdy2 s end) then Crash else
    let s := s_wr true (s_bw b (s_ew i (s_iss (iss s ++ [i]) s))) in
    let s := match b with BFile => s_sf true s | _ => s end in
    if wrdy s then
      if direct then match write_event false okr okw r s with None => Crash | Some s => Ok s true end
      else Ok (add_list LReady s) true
    else Ok (wait_write okr okw s) true
  | EConnect i okr okw =>                                           (* kkqueue_selector.c:144-162 *)
    if no_call i s then Disabled else
    if rd s || wr s || rev s || wev s then Crash else
    let '(s1, r) := add_rw okr okw (s_wr true (s_bw BNone (s_ew i s))) in
    if r : bool then Ok (add_list LConn (s_iss (iss s ++ [i]) s1)) true else Ok (s_wr false s1) false
  | EClose =>                                                       (* kselectable.c:141-153, kkqueue_selector.c:388-410 *)
    if busy s || cl s then Disabled else
    if decide (loc s = LNone) then
      let s := if rev s || wev s then s_rev false (s_wev false (s_et false (s_rrdy false (s_wrdy false s)))) else s in
      Ok (s_cl true (s_kr false (s_kw false (s_pr false (s_pw false s))))) true
    else Crash
  | ENextR i =>                                                     (* kselectable.c:496-506 *)
    if no_call i s then Disabled else
    if rd s || rrdy2 s then Crash else
    Ok (add_list LReady (s_rrdy2 true (s_rd true (s_br false (s_er i (s_iss (iss s ++ [i]) s)))))) true
  | ENextW i =>                                                     (* kselectable.c:507-517 *)
    if no_call i s then Disabled else
    if wr s || wrdy2 s then Crash else
    Ok (add_list LReady (s_wrdy2 true (s_wr true (s_bw BNone (s_ew i (s_iss (iss s ++ [i]) s)))))) true
  | EReportR => match pc s with                                     (* kkqueue_selector.c:300-306 *)
    | PIdle => if negb (pr s) then Disabled else
        let s := s_rrdy true (s_pr false s) in Ok (if rd s then add_list LReady s else s) true
    | _ => Disabled end
  | EReportW => match pc s with                                     (* kkqueue_selector.c:294-299 *)
    | PIdle => if negb (pw s) then Disabled else
        let s := s_wrdy true (s_pw false s) in Ok (if wr s then add_list LReady s else s) true
    | _ => Disabled end
  | EPop => match pc s with
    | PIdle => if decide (loc s = LReady) then Ok (s_pc (PW (take_snap s)) (s_loc LNone s)) true else Disabled
    | _ => Disabled end
  | EWEv okr okw r => match pc s with
    | PW n => if n_w n && n_wr n
              then match write_event true okr okw r s with
                   | None => Crash
                   | Some s => Ok (s_pc (PR (mksn (n_rd n) false (n_et n) (n_r n) (n_w n))) s) true end
              else Ok (s_pc (PR n) s) true
    | _ => Disabled end
  | EREv ok r => match pc s with
    | PR n => if n_r n && n_rd n
              then if cl s then Crash else                           (* the memory is gone *)
                   match read_event ok r s with
                   | None => Crash
                   | Some s => Ok (s_pc (PF (mksn false (n_wr n) (n_et n) (n_r n) (n_w n))) s) true end
              else Ok (s_pc (PF n) s) true
    | _ => Disabled end
  | EFin => match pc s with
    | PF n => if (n_rd n || n_wr n) && n_et n then
                if cl s then Crash else                              (* the memory is gone *)
                Ok (s_pc PIdle (list_rw s)) true
              else Ok (s_pc PIdle s) true
    | _ => Disabled end
  | ETimeout => match pc s with
    | PIdle => if decide (loc s = LRw \/ loc s = LConn) then
        if rto && rd s then Ok (call (er s) (-2) s) true
        else (* selectable_shutdown: both directions become ready *)
          Ok (s_shut true (s_loc LNone (s_lin true (s_lout true (s_pr (kr s) (s_pw (kw s) s)))))) true
      else Disabled
    | _ => Disabled end
  | KIn => if cl s then Disabled else Ok (s_pr (kr s) (s_lin true s)) true
  | KOut => if cl s then Disabled else Ok (s_pw (kw s) (s_lout true s)) true
  | KRefuse => if cl s then Disabled else Ok (s_pr (kr s) (s_pw (kw s) (s_lin true (s_lout true s)))) true
  end.
