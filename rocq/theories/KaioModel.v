(** Model of fiber file I/O on the kqueue backend (POSIX AIO): kfiber_file_read/write/seek/tell/close and kfiber_file_callback,
    src/kfiber.c:565-626; kqueue_selector_aio_open/aio_read/aio_write, src/kkqueue_selector.c:326-389; the EVFILT_AIO branch of
    kqueue_selector_select, 314-321; the READY list and what it does with a file, src/kselector.c:237-269; selectable_read_event and
    selectable_write_event with buffer == NULL, src/kselectable.c:403-495; the walk of the RW list, src/kselector.c:157-193;
    kselector_add_list, include/kselectable.h:94-108.  [darwin]: KF_ASYNC_WORKER is defined (include/kfile.h:8-10) and the operations run in
    worker threads, src/kasync_file.c:18-66.

    One file handle (files share nothing but the lists).  One call at a time per handle (C64_shared_refuted shows what happens otherwise) and no
    close during a call; both are made by running fibers.  The kernel performs a submitted operation at any time, for any number of bytes up to
    the length, or fails it.  Lengths are natural numbers below 2^31, offsets do not overflow.  STF_ET is set together with STF_READ/STF_WRITE
    and never cleared: left out. *)
From Verif Require Export Lts.
Local Open Scope Z_scope.

Inductive op := ORd (len : nat) | OWr (bytes : list Z).
(** struct aiocb as the kernel knows it: not known (never submitted, or aio_return was called), in progress, finished *)
Inductive aiocb := Unknown | InProg (o : op) (pos : Z) | Fin (r : Z).
(** base.queue: on no list, on list[KGL_LIST_READY], on list[KGL_LIST_RW] *)
Inductive where_ := Nowhere | LReady | LRw.
Inductive phase := Waiting | Woken (r : Z).
(** what happened, for the statements *)
Inductive hev :=
| HCall (id t : nat) (o : op) (pos : Z) (acc : bool)         (* acc = false: the call returned -1 at once *)
| HExec (id : nat) (res : Z) (before after : list Z)         (* the operation's result, the file's contents *)
| HRet (id t : nat) (r : Z) (buf : list Z)                   (* the call returned r with these bytes at the beginning of the caller's buffer *)
| HSeek (p : Z).
(** contents of the file; st.offset; STF_READ, STF_WRITE, STF_RREADY, STF_WREADY; e[OP_READ].result and e[OP_WRITE].result are set; st.data; iocb;
    kevents not fetched; base.queue; worker: operation queued, result posted; the call in progress (number, fiber, phase); what is in its buffer;
    freed; calls made; history *)
Record st := mk { cont : list Z; off : Z; fR : bool; fW : bool; rr : bool; wr : bool; eR : bool; eW : bool; data : nat; cb : aiocb; evq : nat;
  inq : where_; job : option op; posted : option Z; call : option (nat * nat * phase); buf : list Z; freed : bool; nid : nat; hist : list hev }.
Definition set_call c s := mk (cont s) (off s) (fR s) (fW s) (rr s) (wr s) (eR s) (eW s) (data s) (cb s) (evq s) (inq s) (job s) (posted s) c (buf s)
  (freed s) (nid s) (hist s).
Definition set_off p s := mk (cont s) p (fR s) (fW s) (rr s) (wr s) (eR s) (eW s) (data s) (cb s) (evq s) (inq s) (job s) (posted s) (call s) (buf s)
  (freed s) (nid s) (hist s).
Definition set_flags r w r' w' s := mk (cont s) (off s) r w r' w' (eR s) (eW s) (data s) (cb s) (evq s) (inq s) (job s) (posted s) (call s) (buf s)
  (freed s) (nid s) (hist s).
Definition set_cb c e s := mk (cont s) (off s) (fR s) (fW s) (rr s) (wr s) (eR s) (eW s) (data s) c e (inq s) (job s) (posted s) (call s) (buf s)
  (freed s) (nid s) (hist s).
Definition set_inq q s := mk (cont s) (off s) (fR s) (fW s) (rr s) (wr s) (eR s) (eW s) (data s) (cb s) (evq s) q (job s) (posted s) (call s) (buf s)
  (freed s) (nid s) (hist s).
Definition set_job j p s := mk (cont s) (off s) (fR s) (fW s) (rr s) (wr s) (eR s) (eW s) (data s) (cb s) (evq s) (inq s) j p (call s) (buf s)
  (freed s) (nid s) (hist s).
Definition set_mem c b s := mk c (off s) (fR s) (fW s) (rr s) (wr s) (eR s) (eW s) (data s) (cb s) (evq s) (inq s) (job s) (posted s) (call s) b
  (freed s) (nid s) (hist s).
Definition log h s := mk (cont s) (off s) (fR s) (fW s) (rr s) (wr s) (eR s) (eW s) (data s) (cb s) (evq s) (inq s) (job s) (posted s) (call s) (buf s)
  (freed s) (nid s) (hist s ++ [h]).

Inductive seekpos := seekBegin | seekCur | seekEnd.
Inductive ev :=
| Call (t : nat) (o : op) (ok : bool)      (* kfiber_file_read / write; ok: aio_read / aio_write does not return -1 *)
| Exec (k : nat)                           (* the kernel (or worker) performs the operation, k bytes *)
| Fail (err : Z)                           (* ... or fails it *)
| Poll                                     (* kevent returns the AIO event; the worker's notice is taken *)
| Ready                                    (* the READY list reaches the file *)
| Walk (timeout : bool)                    (* kselector_check_timeout reaches the file on the RW list *)
| Resume                                   (* the woken fiber runs *)
| Seek (p : seekpos) (o : Z)
| Close.

(** pread / pwrite on contents c at position p >= 0 *)
Definition pread (c : list Z) (p : Z) (k : nat) : list Z := take k (drop (Z.to_nat p) c).
Definition pwrite (c : list Z) (p : Z) (b : list Z) : list Z :=
  match b with [] => c | _ =>
    take (Z.to_nat p) c ++ replicate (Z.to_nat p - length c) 0 ++ b ++ drop (Z.to_nat p + length b) c end.

Section M.
Context (darwin : bool).

(** kfiber_file_read / kfiber_file_write: kfiber.c:583-604; kkqueue_selector.c:331-389; kasync_file_worker_start always succeeds *)
Definition start (t : nat) (o : op) (ok : bool) (s : st) : st :=
  let id := nid s in
  let acc := ok || darwin in
  let rd := match o with ORd _ => true | OWr _ => false end in
  mk (cont s) (off s)
    (if darwin then fR s else rd || fR s) (if darwin then fW s else negb rd || fW s) (rr s) (wr s) (rd || eR s) (negb rd || eW s) t
    (if darwin then cb s else if ok then InProg o (off s) else Unknown)
    (evq s) (inq s) (if darwin then Some o else job s) (posted s)
    (if acc then Some (id, t, Waiting) else None) [] (freed s) (S id) (hist s ++ [HCall id t o (off s) acc]).
(** kfiber_file_callback(data, file, length), kfiber.c:565-577; aio_return gives the result once (EINVAL: -1 if the kernel does not know it);
    kfiber_wakeup of a fiber that does not wait fails the assertion in kselector_add_fiber_ready *)
Definition callback (s : st) : res st unit :=
  let length := match cb s with Fin r => r | _ => -1 end in
  let s := set_cb (match cb s with Fin _ => Unknown | c => c end) (evq s) s in
  let s := if 0 <? length then set_off (off s + length) s else s in
  match call s with
  | Some (id, t, Waiting) => if decide (t = data s) then Ok (set_call (Some (id, t, Woken length)) s) tt else Crash
  | _ => Crash
  end.
(** EVFILT_AIO, kkqueue_selector.c:314-321 *)
Definition aio_event (s : st) : st :=
  let s := if fR s then set_flags (fR s) (fW s) true (wr s) s else if fW s then set_flags (fR s) (fW s) (rr s) true s else s in
  set_inq LReady s.
(** kselector.c:243-267 for a file; selectable_write_event / selectable_read_event clear the flag and call the callback (buffer == NULL) *)
Definition ready (s : st) : res st unit :=
  let s := set_inq Nowhere s in
  let w := fW s && wr s in
  let r := fR s && rr s in
  let f := fW s && negb w || fR s && negb r in       (* what is left in the local st_flags *)
  let last s := Ok (if f then set_inq LRw s else s) tt in
  let rd s := if r then
                if eR s then match callback (set_flags false (fW s) (rr s) (wr s) s) with Ok s _ => last s | x => x end else Crash
              else last s in
  if w then
    if eW s then match callback (set_flags (fR s) false (rr s) (wr s) s) with Ok s _ => rd s | x => x end else Crash
  else rd s.
(** the operation in progress, its position, and what happens when it is finished with result r *)
Definition pending (s : st) : option (op * Z) :=
  match job s, cb s with
  | Some o, _ => Some (o, off s)
  | None, InProg o p => Some (o, p)
  | _, _ => None
  end.
Definition finish (r : Z) (c b : list Z) (s : st) : st :=
  let id := match call s with Some (id, _, _) => id | None => O end in
  let s := log (HExec id r (cont s) c) s in
  let s := set_mem c b s in
  match job s with Some _ => set_job None (Some r) s | None => set_cb (Fin r) (S (evq s)) s end.
Definition step (s : st) (e : ev) : res st unit :=
  match e with
  | Call t o ok => match call s with None => if freed s then Disabled else Ok (start t o ok s) tt | Some _ => Disabled end
  | Exec k =>
      match pending s with
      | Some (ORd len, p) =>
          if decide (0 <= p /\ (k <= len)%nat /\ (k <= length (cont s) - Z.to_nat p)%nat) then
            Ok (finish (Z.of_nat k) (cont s) (pread (cont s) p k) s) tt
          else Disabled
      | Some (OWr b, p) =>
          if decide (0 <= p /\ (k <= length b)%nat) then Ok (finish (Z.of_nat k) (pwrite (cont s) p (take k b)) (buf s) s) tt else Disabled
      | None => Disabled
      end
  | Fail err => match pending s with Some _ => Ok (finish (-1) (cont s) (buf s) s) tt | None => Disabled end
  | Poll =>
      match evq s, posted s with
      | S n, _ => if freed s then Crash else Ok (aio_event (set_cb (cb s) n s)) tt
      | O, Some r => if freed s then Crash else callback (set_job (job s) None s)
      | O, None => Disabled
      end
  | Ready => match inq s with LReady => if freed s then Crash else ready s | _ => Disabled end
  | Walk tmo =>
      match inq s with
      | LRw => if freed s then Crash else Ok (if tmo then set_inq Nowhere s else s) tt
      | _ => Disabled
      end
  | Resume =>
      match call s with
      | Some (id, t, Woken r) => Ok (set_call None (log (HRet id t r (buf s)) s)) tt
      | _ => Disabled
      end
  | Seek p o =>
      match call s with
      | None => if freed s then Disabled else
                match p with
                | seekBegin => Ok (log (HSeek o) (set_off o s)) tt
                | seekCur => Ok (log (HSeek (off s + o)) (set_off (off s + o) s)) tt
                | seekEnd => Ok s tt
                end
      | Some _ => Disabled
      end
  | Close => match call s with None => if freed s then Disabled else
      Ok (mk (cont s) (off s) (fR s) (fW s) (rr s) (wr s) (eR s) (eW s) (data s) (cb s) (evq s) (inq s) (job s) (posted s) None (buf s) true (nid s)
            (hist s)) tt | Some _ => Disabled end
  end.
End M.
(** xmemory_newz and kqueue_selector_aio_open; the file holds c0 *)
Definition init (c0 : list Z) : st :=
  mk c0 0 false false false false false false 0 Unknown 0 Nowhere None None None [] false 0 [].
