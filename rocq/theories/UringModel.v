(** The io_uring backend (build option LINUX_IOURING): src/kiouring_selector.c, with the parts of src/kselectable.c and
    src/kselector.c it relies on in the poll model (selectable_read_event, selectable_write_event, kselectable_is_read_ready,
    the READY list of kselector_check_timeout).

    One selector, one thread.  The kernel is an adversary: it completes submitted requests in any order with any
    result; a submission may fail.  User callbacks are observations; what a callback does next are the following events
    (the code touches nothing of the event after calling back). *)
From stdpp Require Export gmap.
From Verif Require Export Lts.
Local Open Scope Z_scope.

Inductive dir := R | W.
Global Instance dir_eq_dec : EqDecision dir.
Proof. solve_decision. Defined.
Global Instance dir_countable : Countable dir.
Proof.
  refine (inj_countable' (fun d => match d with R => true | W => false end) (fun b => if b : bool then R else W) _). by intros [].
Defined.
Definition other (d : dir) : dir := match d with R => W | W => R end.

(** kgl_event.result/arg: a user callback (of call k), or the two halves of iouring_sendfile number i *)
Inductive cb := User (k : nat) | SfSock (i : nat) | SfFile (i : nat).
(** kgl_event.buffer: NULL, &null_buffer (src/kiouring_selector.c:31), or the user's *)
Inductive bufk := BNone | BNull | BUser.
Global Instance bufk_eq_dec : EqDecision bufk.
Proof. solve_decision. Defined.
(** one direction of a kselectable: STF_READ/STF_WRITE, STF_RREADY/WREADY, STF_RREADY2/WREADY2, e[d] *)
Record slot := Slot { busy : bool; rdy : bool; rdy2 : bool; cbk : cb; buf : bufk }.
Definition slot0 : slot := Slot false false false (User 0) BNone.
(** iouring_sendfile, src/kiouring_selector.c:17-24: socket, file, the two pipe ends (open?), refs, got, skip_call_result *)
Record sfile := Sf { f_st : nat; f_file : nat; f_p0 : bool; f_p1 : bool; f_refs : nat; f_got : Z; f_skip : bool;
  f_call : nat (* ghost: the call *) }.
(** a submission entry: the timeout of select, a zero entry (user_data NULL), or a request whose user_data is e[d] of
    object o; ghost: the call k that prepared it *)
Inductive sqe := STmo | SNull | SOp (o : nat) (d : dir) (k : nat).

(** calls of the API: read/write with (b = true) or without buffer; connect, accept, aio read/write (Plain);
    selectable_next_read/next_write; sendfile of file f to socket o *)
Inductive call := CRw (o : nat) (d : dir) (b : bool) | CPlain (o : nat) (d : dir) | CNext (o : nat) (d : dir) | CSf (o f : nat).
(** observations.  Made: call k is made.  Cb: the callback of call k runs with v.  Fail: call k returns false.
    KRes: the kernel completes the request of call k for e[d] of object o with result v.
    Try: the recv/send tried for call k in the poll model returns v, or EAGAIN (None).  NoSqe: no submission entry can be had
    for call k.  Pipe/PClose: the pipe of sendfile i is created / one of its ends (true = write end) is closed. *)
Inductive obs := Born (o : nat) | Dead (o : nat) | Polled (o : nat) | Made (k : nat) (c : call)
  | Cb (k : nat) (v : Z) | Fail (k : nat) | KRes (k : nat) (o : nat) (d : dir) (v : Z)
  | Try (k : nat) (v : option Z) | NoSqe (k : nat) | Pipe (i : nat) | PClose (i : nat) (b : bool).

(** [poll]: objects with STF_USEPOLL; [ready]: objects on the READY list; [sq]: entries not yet submitted; [old]: every
    entry ever put into the ring (the slot of the next entry still holds the one put N entries before); [infl]: in the kernel;
    [cq]: completed, not yet handled; [next], [nsf]: numbers of the next call and the next sendfile; [hist]: ghost, all
    observations so far; [born]: ids used *)
Record st := St { slots : gmap (nat * dir) slot; poll : gset nat; ready : gset nat; sfs : gmap nat sfile;
  sq : list sqe; old : list sqe; infl : list sqe; cq : list (sqe * Z); next : nat; nsf : nat; born : gset nat; hist : list obs }.
Definition set_slots s x := St x (poll s) (ready s) (sfs s) (sq s) (old s) (infl s) (cq s) (next s) (nsf s) (born s) (hist s).
Definition set_poll s x := St (slots s) x (ready s) (sfs s) (sq s) (old s) (infl s) (cq s) (next s) (nsf s) (born s) (hist s).
Definition set_ready s x := St (slots s) (poll s) x (sfs s) (sq s) (old s) (infl s) (cq s) (next s) (nsf s) (born s) (hist s).
Definition set_sfs s x := St (slots s) (poll s) (ready s) x (sq s) (old s) (infl s) (cq s) (next s) (nsf s) (born s) (hist s).
Definition set_sq s x := St (slots s) (poll s) (ready s) (sfs s) x (old s) (infl s) (cq s) (next s) (nsf s) (born s) (hist s).
Definition set_old s x := St (slots s) (poll s) (ready s) (sfs s) (sq s) x (infl s) (cq s) (next s) (nsf s) (born s) (hist s).
Definition set_infl s x := St (slots s) (poll s) (ready s) (sfs s) (sq s) (old s) x (cq s) (next s) (nsf s) (born s) (hist s).
Definition set_cq s x := St (slots s) (poll s) (ready s) (sfs s) (sq s) (old s) (infl s) x (next s) (nsf s) (born s) (hist s).
Definition set_next s x := St (slots s) (poll s) (ready s) (sfs s) (sq s) (old s) (infl s) (cq s) x (nsf s) (born s) (hist s).
Definition set_nsf s x := St (slots s) (poll s) (ready s) (sfs s) (sq s) (old s) (infl s) (cq s) (next s) x (born s) (hist s).
Definition set_born s x := St (slots s) (poll s) (ready s) (sfs s) (sq s) (old s) (infl s) (cq s) (next s) (nsf s) x (hist s).
Definition set_hist s x := St (slots s) (poll s) (ready s) (sfs s) (sq s) (old s) (infl s) (cq s) (next s) (nsf s) (born s) x.
Definition set_slot s o d x := set_slots s (<[(o, d) := x]> (slots s)).

Section model.
Context (N : nat).   (* URING_COUNT, src/kiouring_selector.c:15 *)

(** io_uring_submit: everything queued goes to the kernel *)
Definition submit (s : st) : st := set_sq (set_infl s (infl s ++ sq s)) [].
(** kiouring_get_seq, src/kiouring_selector.c:67-82; [sub]: the submission succeeds if one is needed *)
Definition get_seq (s : st) (sub : bool) : option st :=
  if decide (length (sq s) < N)%nat then Some s
  else if sub then (if decide (0 < N)%nat then Some (submit s) else None) else None.
(** filling the slot obtained (io_uring_prep_x, io_uring_sqe_set_data) *)
Definition put (s : st) (e : sqe) : st := set_old (set_sq s (sq s ++ [e])) (old s ++ [e]).
(** what the slot obtained holds if it is not filled *)
Definition stale (s : st) : sqe :=
  if decide (length (old s) < N)%nat then SNull else default SNull (old s !! (length (old s) - N)%nat).

(** the end of iouring_selector_read / iouring_selector_write, src/kiouring_selector.c:214-241, 245-282, when the object is
    not known to be ready: an entry is queued, or the callback is called with -1 *)
Definition arm (s : st) (o : nat) (d : dir) (k : nat) (sl : slot) (b : bool) (sub : bool) : st * list obs :=
  let bk := if b then BUser else if decide (o ∈ poll s) then BNone else BNull in
  match get_seq s sub with
  | None => (set_slot s o d (Slot false (rdy sl) (rdy2 sl) (User k) (if b then BUser else BNone)), [NoSqe k; Cb k (-1)])
  | Some s => (put (set_slot s o d (Slot true (rdy sl) (rdy2 sl) (User k) bk)) (SOp o d k), [])
  end.

(** selectable_read_event / selectable_write_event with selectable_event_read / selectable_event_write
    (src/kselectable.c:358-500): the pending request is tried; [att] = None: EAGAIN.  STF_ERR is never set with io_uring *)
Definition try_event (s : st) (o : nat) (d : dir) (att : option Z) (sub : bool) : res st (list obs) :=
  match slots s !! (o, d) with
  | None => Crash
  | Some sl =>
      match cbk sl with
      | User k =>
          let sl1 := Slot false (rdy sl) false (cbk sl) (buf sl) in
          match buf sl, att with
          | BUser, None => let r := arm s o d k (Slot false false false (cbk sl) (buf sl)) true sub in Ok r.1 (Try k None :: r.2)
          | BUser, Some v => Ok (set_slot s o d sl1) [Try k (Some v); Cb k v]
          | _, _ => Ok (set_slot s o d sl1) [Cb k 0]
          end
      | _ => Crash
      end
  end.

(** iouring_selector_read / iouring_selector_write.  [main]: called outside fibers; otherwise a ready object is tried at
    once (kselectable_is_read_ready, include/kselectable.h:109-124).  The assertion on STF_READ is at line 202, for
    writes in selectable_write (src/kselectable.c:546) *)
Definition start_rw (s : st) (o : nat) (d : dir) (b main : bool) (att : option Z) (sub : bool) : res st (list obs) :=
  match slots s !! (o, d) with
  | None => Crash
  | Some sl =>
      if busy sl then Crash
      else
        let k := next s in
        let s := set_next s (S k) in
        let m := Made k (CRw o d b) in
        if decide (o ∈ poll s /\ rdy sl = true) then
          let s := set_slot s o d (Slot true (rdy sl) (rdy2 sl) (User k) (if b then BUser else BNone)) in
          if main then Ok (set_ready s ({[o]} ∪ ready s)) [m]
          else match try_event s o d att sub with Ok s o => Ok s (m :: o) | x => x end
        else let r := arm s o d k sl b sub in Ok r.1 (m :: r.2)
  end.

(** iouring_selector_connect (322-342), iouring_add_accept_event (150-166), iouring_selector_aio_read/write (290-321):
    no entry: false is returned and the callback is not called.  (Accept keeps the user's callback in e[OP_WRITE] and
    calls it from iouring_listen_result: one slot here.  Accept has no assertion: simplification) *)
Definition start_plain (s : st) (o : nat) (d : dir) (sub : bool) : res st (list obs) :=
  match slots s !! (o, d) with
  | None => Crash
  | Some sl =>
      if busy sl then Crash
      else
        let k := next s in
        let s := set_next s (S k) in
        match get_seq s sub with
        | None => Ok s [Made k (CPlain o d); NoSqe k; Fail k]
        | Some s => Ok (put (set_slot s o d (Slot true (rdy sl) (rdy2 sl) (User k) BNone)) (SOp o d k)) [Made k (CPlain o d)]
        end
  end.

(** selectable_next_read / selectable_next_write, src/kselectable.c:501-522 *)
Definition start_next (s : st) (o : nat) (d : dir) : res st (list obs) :=
  match slots s !! (o, d) with
  | None => Crash
  | Some sl =>
      if busy sl || rdy2 sl then Crash
      else
        let k := next s in
        Ok (set_ready (set_slot (set_next s (S k)) o d (Slot true (rdy sl) true (User k) BNone)) ({[o]} ∪ ready s)) [Made k (CNext o d)]
  end.

(** iouring_selector_sendfile without STF_USEPOLL, src/kiouring_selector.c:466-512 (with STF_USEPOLL it behaves as a write).
    [sub1], [sub2]: the two kiouring_get_seq; [pok]: pipe2 succeeds.  Note that e[OP_WRITE].buffer of the socket and
    e[OP_READ].buffer of the file are left as they were *)
Definition sendfile (s : st) (o f : nat) (sub1 pok sub2 : bool) : res st (list obs) :=
  match slots s !! (o, W), slots s !! (f, R), slots s !! (f, W) with
  | Some so, Some fr, Some fw =>
      let k := next s in
      let s := set_next s (S k) in
      let m := Made k (CSf o f) in
      match get_seq s sub1 with
      | None => Ok s [m; NoSqe k; Cb k (-1)]
      | Some s =>
          if negb pok then Ok (put s (stale s)) [m; Cb k (-1)]
          else
            let i := nsf s in
            let s := set_nsf s (S i) in
            let s := set_slot s f W (Slot (busy fw) (rdy fw) (rdy2 fw) (User k) (buf fw)) in
            let s := put (set_slot s f R (Slot true (rdy fr) (rdy2 fr) (SfFile i) (buf fr))) (SOp f R k) in
            match get_seq s sub2 with
            | None => Ok (set_sfs s (<[i := Sf o f true true 1 0 true k]> (sfs s))) [m; Pipe i; NoSqe k; Cb k (-1)]
            | Some s =>
                let s := set_sfs s (<[i := Sf o f true true 2 0 false k]> (sfs s)) in
                Ok (put (set_slot s o W (Slot true (rdy so) (rdy2 so) (SfSock i) (buf so))) (SOp o W k)) [m; Pipe i]
            end
      end
  | _, _, _ => Crash
  end.

(** iouring_sendfile_result and its two callers, src/kiouring_selector.c:32-66; [sock]: the socket half *)
Definition sf_result (s : st) (i : nat) (sock : bool) (got : Z) : res st (list obs) :=
  match sfs s !! i with
  | None => Crash
  | Some x =>
      let x := if sock then Sf (f_st x) (f_file x) false (f_p1 x) (f_refs x) got (f_skip x) (f_call x)
               else Sf (f_st x) (f_file x) (f_p0 x) false (f_refs x) (f_got x) (f_skip x) (f_call x) in
      let cl := [PClose i (negb sock)] in
      if decide (1 < f_refs x)%nat then
        Ok (set_sfs s (<[i := Sf (f_st x) (f_file x) (f_p0 x) (f_p1 x) (f_refs x - 1) (f_got x) (f_skip x) (f_call x)]> (sfs s))) cl
      else
        let rest := (if f_p0 x then [PClose i false] else []) ++ (if f_p1 x then [PClose i true] else []) in
        let s' := set_sfs s (delete i (sfs s)) in
        if f_skip x then Ok s' (cl ++ rest)
        else match slots s !! (f_file x, W) with
             | Some fw => match cbk fw with User k => Ok s' (cl ++ [Cb k (f_got x)] ++ rest) | _ => Crash end
             | None => Crash
             end
  end.

(** handle_complete_event, src/kiouring_selector.c:350-401 *)
Definition handle (s : st) (o : nat) (d : dir) (got : Z) : res st (list obs) :=
  match slots s !! (o, d), slots s !! (o, other d) with
  | Some sl, Some sl' =>
      let s := if busy sl && busy sl' then (if rdy2 sl || rdy2 sl' then s else set_ready s (ready s ∖ {[o]}))
               else set_ready s (ready s ∖ {[o]}) in
      let got := if decide (0 < got /\ buf sl = BNull) then 0 else got in
      if negb (busy sl) then Crash
      else if decide (o ∈ poll s) then
        Ok (set_ready (set_slot s o d (Slot true true (rdy2 sl) (cbk sl) (buf sl))) ({[o]} ∪ ready s)) []
      else if rdy sl || rdy2 sl then Crash
      else
        let s := set_slot s o d (Slot false (rdy sl) (rdy2 sl) (cbk sl) (buf sl)) in
        match cbk sl with
        | User k => Ok s [Cb k got]
        | SfSock i => sf_result s i true got
        | SfFile i => sf_result s i false got
        end
  | _, _ => Crash
  end.

(** the READY list entry of object [o] in kselector_check_timeout, src/kselector.c:236-268.  With io_uring STF_RDHUP is
    never set and STF_ET not defined *)
Definition fires (s : st) (o : nat) (d : dir) : bool :=
  match slots s !! (o, d) with Some sl => busy sl && (rdy sl || rdy2 sl) | None => false end.
Definition pump (s : st) (o : nat) (aw : option Z) (sw : bool) (ar : option Z) (sr : bool) : res st (list obs) :=
  let s := set_ready s (ready s ∖ {[o]}) in
  let fr := fires s o R in
  match (if fires s o W then try_event s o W aw sw else Ok s []) with
  | Ok s ow => match (if fr then try_event s o R ar sr else Ok s []) with Ok s or => Ok s (ow ++ or) | x => x end
  | x => x
  end.

Inductive ev :=
| New (o : nat)                                       (* a selectable or aio file is created *)
| SetPoll (o : nat)                                   (* kconnection_new_ssl, src/kconnection.c:266; kudp_new2, src/kudp.c:72 *)
| Free (o : nat)                                      (* it is destroyed: selectable_clean, src/kselectable.c:138-150 *)
| Rw (o : nat) (d : dir) (b main : bool) (att : option Z) (sub : bool)
| Plain (o : nat) (d : dir) (sub : bool)
| Nxt (o : nat) (d : dir)
| Sendfile (o f : nat) (sub1 pok sub2 : bool)
| Select (sub ok : bool)                              (* 425-437: add the timeout entry, submit ([ok]: it succeeds) *)
| KDone (n : nat) (v : Z)                             (* the kernel completes request n of those it has *)
| Reap                                                (* iouring_handle_cq, 403-421: the next completion *)
| Pump (o : nat) (aw : option Z) (sw : bool) (ar : option Z) (sr : bool).

Definition act (s : st) (e : ev) : res st (list obs) :=
  match e with
  | New o => if decide (o ∈ born s) then Disabled
             else Ok (set_slots (set_born s ({[o]} ∪ born s)) (<[(o, R) := slot0]> (<[(o, W) := slot0]> (slots s)))) [Born o]
  | SetPoll o => Ok (set_poll s ({[o]} ∪ poll s)) [Polled o]
  | Free o =>
      match slots s !! (o, R), slots s !! (o, W) with
      | Some a, Some b => if busy a || busy b || bool_decide (o ∈ ready s) then Crash
                          else Ok (set_slots s (delete (o, R) (delete (o, W) (slots s)))) [Dead o]
      | _, _ => Crash
      end
  | Rw o d b main att sub => start_rw s o d b main att sub
  | Plain o d sub => start_plain s o d sub
  | Nxt o d => start_next s o d
  | Sendfile o f sub1 pok sub2 => sendfile s o f sub1 pok sub2
  | Select sub ok =>
      match get_seq s sub with
      | None => Crash                                  (* 345-346: io_uring_prep_timeout on a NULL entry *)
      | Some s => let s := put s STmo in Ok (if ok then submit s else s) []
      end
  | KDone n v =>
      match infl s !! n with
      | None => Disabled
      | Some e => Ok (set_cq (set_infl s (delete n (infl s))) (cq s ++ [(e, v)]))
                     (match e with SOp o d k => [KRes k o d v] | _ => [] end)
      end
  | Reap =>
      match cq s with
      | [] => Disabled
      | (STmo, _) :: c => Ok (set_cq s c) []
      | (SNull, _) :: _ => Crash
      | (SOp o d k, v) :: c => handle (set_cq s c) o d v
      end
  | Pump o aw sw ar sr => if decide (o ∈ ready s) then pump s o aw sw ar sr else Disabled
  end.
(** every observation is also appended to the history *)
Definition step (s : st) (e : ev) : res st (list obs) :=
  match act s e with Ok s' o => Ok (set_hist s' (hist s ++ o)) o | x => x end.
Definition init : st := St ∅ ∅ ∅ ∅ [] [] [] [] 0 0 ∅ [].
End model.
