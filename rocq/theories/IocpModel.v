(** The Windows backend: src/kiocp_selector.c (overlapped operations on a completion port), with the parts of src/kselectable.c,
    include/kselectable.h, src/kselector.c and src/kserver.c it relies on (selectable_next_read/next_write, selectable_clean, the timeout
    lists and the READY list of kselector_check_timeout, kserver_get_socket).

    One selector, one selector thread; any thread may call [next] and stop a server.  The kernel is an adversary: it completes the
    operations in flight in any order with any result, and any call of it may fail at once.  User callbacks are observations in the
    history; what a callback does are the following events (the code touches nothing of the event after calling back, except where a
    program counter [pc] says so).  Simplified: every socket is bound to the port when it is made (iocp_selector_bind; the assertions on
    STF_IOCP_BINDED are left out); GetQueuedCompletionStatusEx hands over up to 256 entries in the order of the queue, which is the same as
    one at a time; the clock of the timeout lists is left out (C28, C29): a listed connection may time out at any moment; no SSL. *)
From stdpp Require Export gmap.
From Verif Require Export Lts.
Local Open Scope Z_scope.

Inductive dir := R | W.
Global Instance dir_eq_dec : EqDecision dir. Proof. solve_decision. Defined.
Definition other (d : dir) : dir := match d with R => W | W => R end.
(** a connection; a UDP socket (with c->udp or not); a listening socket; an asynchronous file *)
Inductive kind := KConn | KUdp (ext : bool) | KListen | KFile.
Global Instance kind_eq_dec : EqDecision kind. Proof. solve_decision. Defined.
(** KGL_LIST_CONNECT, KGL_LIST_RW, KGL_LIST_READY *)
Inductive lst := LConn | LRw | LReady.
Global Instance lst_eq_dec : EqDecision lst. Proof. solve_decision. Defined.
(** one direction of a kselectable: STF_READ/STF_WRITE, STF_RREADY2/STF_WREADY2, e[d].result with e[d].arg = the number of the request *)
Record side := Sd { bz : bool; f2 : bool; rq : nat }.
(** a kselectable: the list it is queued on; STF_RTIME_OUT; ss->accept_sockfd; KGL_SERVER_START of its server; ghost: shut down by a timeout *)
Record ob := Ob { kd : kind; sr : side; sw : side; loc : option lst; rto : bool; acs : option nat; srv : bool; shut : bool }.
Definition sid (x : ob) (d : dir) : side := match d with R => sr x | W => sw x end.
Definition set_sid (x : ob) (d : dir) (y : side) : ob :=
  match d with R => Ob (kd x) y (sw x) (loc x) (rto x) (acs x) (srv x) (shut x) | W => Ob (kd x) (sr x) y (loc x) (rto x) (acs x) (srv x) (shut x) end.
Definition set_loc (x : ob) l := Ob (kd x) (sr x) (sw x) l (rto x) (acs x) (srv x) (shut x).
Definition set_acs (x : ob) a := Ob (kd x) (sr x) (sw x) (loc x) (rto x) a (srv x) (shut x).
Definition set_srv (x : ob) b := Ob (kd x) (sr x) (sw x) (loc x) (rto x) (acs x) b (shut x).
Definition set_shut (x : ob) b := Ob (kd x) (sr x) (sw x) (loc x) (rto x) (acs x) (srv x) b.

(** the calls *)
Inductive call := CRead | CWrite | CSend | CConnect | CAioR | CAioW | CAccept | CNextR | CNextW.
Definition cside (c : call) : dir := match c with CRead | CAioR | CAccept | CNextR => R | _ => W end.
(** history.  Made: request k is made on object o; Post: [next] with callback k and value v; Cb: the callback of k runs with v; Fail: the
    call returns false; NoStart: the kernel refuses the operation of k; Kern: the kernel completes it with v (None: an error); Drop: the
    post of k failed; Tmo: the callback of k is told of a read timeout (not an answer); Sock/Hand/SockClose: an accept socket n is made by
    o, given to the user, closed; Stop: the server of o is stopped *)
Inductive obs := OOpen (o : nat) (kd : kind) | OClose (o : nat) | OMade (k o : nat) (c : call) | OPost (k : nat) (v : Z) | OCb (k : nat) (v : Z) | OFail (k : nat)
  | ONoStart (k : nat) | OKern (k : nat) (v : option Z) | ODrop (k : nat) | OTmo (k : nat) | OShut (o : nat) | OSock (o n : nat) | OHand (n : nat) | OSockClose (n : nat) | OStop (o : nat).
(** an operation in flight: object, direction, ghost: request *)
Notation op := (nat * dir * nat)%type.
(** an entry of the completion port: of an operation, with the result; posted by [next]: the block next_st, named by its request *)
Inductive comp := KOp (p : op) (v : option Z) | KNext (k : nat) (v : Z).
(** the selector thread inside the READY loop of kselector_check_timeout, src/kselector.c:236-268: object, the copy of STF_READ, of
    STF_WRITE, of STF_RREADY2, and which part is next *)
Inductive pcs := PIdle | PW (o : nat) (r w r2 w2 : bool) | PR (o : nat) (r w r2 : bool) | PE (o : nat) (r w : bool).
Record sys := Sys { objs : gmap nat ob; pend : list op; cq : list comp; heap : gset nat; pc : pcs; acc : option (nat * nat);
  nx : nat; nsk : nat; hist : list obs }.
Definition s_objs m s := Sys m (pend s) (cq s) (heap s) (pc s) (acc s) (nx s) (nsk s) (hist s).
Definition s_pend l s := Sys (objs s) l (cq s) (heap s) (pc s) (acc s) (nx s) (nsk s) (hist s).
Definition s_cq l s := Sys (objs s) (pend s) l (heap s) (pc s) (acc s) (nx s) (nsk s) (hist s).
Definition s_heap h s := Sys (objs s) (pend s) (cq s) h (pc s) (acc s) (nx s) (nsk s) (hist s).
Definition s_pc p s := Sys (objs s) (pend s) (cq s) (heap s) p (acc s) (nx s) (nsk s) (hist s).
Definition s_acc a s := Sys (objs s) (pend s) (cq s) (heap s) (pc s) a (nx s) (nsk s) (hist s).
Definition s_nx n s := Sys (objs s) (pend s) (cq s) (heap s) (pc s) (acc s) n (nsk s) (hist s).
Definition s_nsk n s := Sys (objs s) (pend s) (cq s) (heap s) (pc s) (acc s) (nx s) n (hist s).
Definition log h s := Sys (objs s) (pend s) (cq s) (heap s) (pc s) (acc s) (nx s) (nsk s) (hist s ++ h).
Definition put o x s := s_objs (<[o := x]> (objs s)) s.

Inductive ev :=
| EOpen (o : nat) (kd : kind) (rto : bool)
| EClose (o : nat)                              (* selectable_clean; kserver_selectable_destroy; kasync_file_close *)
| ERead (o : nat) (b ok : bool)                 (* b: with a buffer; ok: the kernel takes the operation *)
| EWrite (o : nat) (b ok : bool)
| ESend (o : nat) (ok : bool)
| EConnect (o : nat) (ok : bool)
| EAio (o : nat) (d : dir) (ok : bool)
| ENextRW (o : nat) (d : dir)                   (* selectable_next_read, selectable_next_write *)
| EAccept (o : nat) | EAcc (sok aok : bool)     (* iocp_selector_accept; one turn of its loop *)
| EStop (o : nat)                               (* kserver_close clears KGL_SERVER_START (any thread) *)
| ETake (o : nat) (good : bool)                 (* kserver_get_socket *)
| ENext (v : Z) (ok : bool)                     (* iocp_selector_next (any thread) *)
| EKernel (i : nat) (v : option Z)              (* the kernel completes an operation in flight *)
| ESelect                                       (* one entry is taken from the port and handled *)
| EReady (o : nat) | EPart                      (* the READY loop takes an object; goes on *)
| ETimeout (o : nat) (lf : bool).             (* the head of a timeout list is due; lf: tmo_left > 0 *)

(** kselector_add_list, include/kselectable.h:92-107 *)
Definition add_list (l : lst) (x : ob) : ob := set_loc x (Some l).
(** the end of read, write, sendfile: 166-168, 204-206, 370-372 *)
Definition list_rw (x : ob) : ob := match loc x with None => add_list LRw x | Some _ => x end.
(** the request whose callback e[d].result calls: that of a listening socket is iocp_accept_result, 230-239, which calls e[OP_WRITE].result
    with e[OP_WRITE].arg *)
Definition rqo (x : ob) (d : dir) : nat := if decide (kd x = KListen) then rq (sw x) else rq (sid x d).
(** WSARecv, WSASend, TransmitFile, WSARecvMsg: the flag is set, the callback stored, the operation started; a refused operation calls back -1:
    102-170, 171-208, 348-374 *)
Definition start_cb (s : sys) (o : nat) (x : ob) (c : call) (ok : bool) : sys :=
  let k := nx s in let d := cside c in
  if ok then
    log [OMade k o c] (s_nx (S k) (s_pend (pend s ++ [(o, d, k)]) (put o (list_rw (set_sid x d (Sd true (f2 (sid x d)) k))) s)))
  else log [OMade k o c; ONoStart k; OCb k (-1)] (s_nx (S k) (put o (set_sid x d (Sd false (f2 (sid x d)) k)) s)).
(** ConnectEx, ReadFile, WriteFile: a refused operation returns false; [f]: what happens to the lists: 209-229, 293-347 *)
Definition start_bool (s : sys) (o : nat) (x : ob) (c : call) (f : ob -> ob) (ok : bool) : sys :=
  let k := nx s in let d := cside c in
  if ok then
    log [OMade k o c] (s_nx (S k) (s_pend (pend s ++ [(o, d, k)]) (put o (f (set_sid x d (Sd true (f2 (sid x d)) k))) s)))
  else log [OMade k o c; ONoStart k; OFail k] (s_nx (S k) (put o (set_sid x d (Sd false (f2 (sid x d)) k)) s)).
(** (result ? recvBytes : -1), 391, 399 *)
Definition got (v : option Z) : Z := match v with Some n => n | None => -1 end.
(** handle_complete_event, 375-403 *)
Definition handle (s : sys) (o : nat) (d : dir) (v : option Z) : res sys unit :=
  match objs s !! o with
  | None => Crash                                                        (* the memory of the object is gone *)
  | Some x =>
    let x := if bz (sr x) && bz (sw x) then (if f2 (sr x) || f2 (sw x) then x else add_list LRw x) else set_loc x None in
    let y := sid x d in
    if negb (bz y) || f2 y then Crash                                    (* kassert, 388, 390 / 396, 398 *)
    else Ok (log [OCb (rqo x d) (got v)] (put o (set_sid x d (Sd false false (rq y))) s)) tt
  end.
(** selectable_read_event / selectable_write_event for an object with STF_RREADY2 / STF_WREADY2 and no buffer, src/kselectable.c:345-362,
    394-412, 459-495 *)
Definition ready_event (s : sys) (o : nat) (d : dir) : res sys unit :=
  match objs s !! o with
  | None => Crash
  | Some x => Ok (log [OCb (rq (sid x d)) 0] (put o (set_sid x d (Sd false false (rq (sid x d)))) s)) tt
  end.
Definition thread_free (s : sys) : bool := match acc s with None => true | Some _ => false end.
Definition pc_idle (s : sys) : bool := match pc s with PIdle => true | _ => false end.
Definition step (s : sys) (e : ev) : res sys unit :=
  match e with
  | EOpen o k t =>
    match objs s !! o with
    | None => Ok (log [OOpen o k] (put o (Ob k (Sd false false 0) (Sd false false 0) None t None true false) s)) tt
    | Some _ => Disabled
    end
  | EClose o =>
    if negb (thread_free s) then Disabled else
    match objs s !! o with
    | Some x =>
      match kd x with
      | KConn | KUdp _ =>                                                (* selectable_clean, src/kselectable.c:141-146 *)
        if bz (sr x) || bz (sw x) || bool_decide (loc x <> None) then Crash else Ok (log [OClose o] (s_objs (delete o (objs s)) s)) tt
      | KListen =>                                                       (* kserver_selectable_free, src/kserver.c:115-121 *)
        Ok (log (OClose o :: match acs x with Some n => [OSockClose n] | None => [] end) (s_objs (delete o (objs s)) s)) tt
      | KFile => Ok (log [OClose o] (s_objs (delete o (objs s)) s)) tt
      end
    | None => Disabled
    end
  | ERead o b ok =>                                                      (* 102-170 *)
    if negb (thread_free s) then Disabled else
    match objs s !! o with
    | Some x =>
      match kd x with
      | KConn => if bz (sr x) then Crash else Ok (start_cb s o x CRead ok) tt
      | KUdp _ => if bz (sr x) || negb b then Crash else Ok (start_cb s o x CRead ok) tt      (* iocp_selector_recvmsg *)
      | _ => Disabled
      end
    | None => Disabled
    end
  | EWrite o b ok =>                                                     (* selectable_write, src/kselectable.c:547-557; 171-208 *)
    if negb (thread_free s) then Disabled else
    match objs s !! o with
    | Some x => match kd x with KConn => if bz (sw x) || f2 (sw x) then Crash else Ok (start_cb s o x CWrite ok) tt | _ => Disabled end
    | None => Disabled
    end
  | ESend o ok =>                                                        (* 348-374 *)
    if negb (thread_free s) then Disabled else
    match objs s !! o with
    | Some x => match kd x with KConn => if bz (sw x) then Crash else Ok (start_cb s o x CSend ok) tt | _ => Disabled end
    | None => Disabled
    end
  | EConnect o ok =>                                                     (* 209-229 *)
    if negb (thread_free s) then Disabled else
    match objs s !! o with
    | Some x =>
      match kd x with
      | KConn => if bz (sw x) then Crash else if ok && bool_decide (loc x <> None) then Crash else Ok (start_bool s o x CConnect (add_list LConn) ok) tt
      | _ => Disabled
      end
    | None => Disabled
    end
  | EAio o d ok =>                                                       (* 293-347 *)
    if negb (thread_free s) then Disabled else
    match objs s !! o with
    | Some x =>
      match kd x with
      | KFile => if bz (sr x) || bz (sw x) then Crash else Ok (start_bool s o x (match d with R => CAioR | W => CAioW end) (λ x, x) ok) tt
      | _ => Disabled
      end
    | None => Disabled
    end
  | ENextRW o d =>                                                       (* src/kselectable.c:496-517 *)
    if negb (thread_free s) then Disabled else
    match objs s !! o with
    | Some x =>
      match kd x with
      | KConn =>
        if bz (sid x d) || f2 (sid x d) then Crash
        else Ok (log [OMade (nx s) o (match d with R => CNextR | W => CNextW end)] (s_nx (S (nx s)) (put o (add_list LReady (set_sid x d (Sd true true (nx s)))) s))) tt
      | _ => Disabled
      end
    | None => Disabled
    end
  | EAccept o =>                                                         (* 240-250 *)
    if negb (thread_free s) then Disabled else
    match objs s !! o with
    | Some x =>
      match kd x with
      | KListen =>
        let s1 := s_nx (S (nx s)) (put o (set_sid x W (Sd (bz (sw x)) (f2 (sw x)) (nx s))) s) in
        if srv x then Ok (log [OMade (nx s) o CAccept] (s_acc (Some (o, nx s)) s1)) tt
        else Ok (log [OMade (nx s) o CAccept; OFail (nx s)] s1) tt
      | _ => Disabled
      end
    | None => Disabled
    end
  | EAcc sok aok =>                                                      (* kiocp_accept_ex, 32-56, and 244-249 *)
    match acc s with
    | Some (o, k) =>
      match objs s !! o with
      | Some x =>
        if bool_decide (acs x <> None) then Crash else                   (* kassert, 34 *)
        let n := nsk s in
        if sok && aok then
          Ok (log [OSock o n] (s_acc None (s_nsk (S n) (s_pend (pend s ++ [(o, R, k)]) (put o (set_sid (set_acs x (Some n)) R (Sd true (f2 (sr x)) (rq (sr x)))) s))))) tt
        else
          let s1 := if sok then log [OSock o n; OSockClose n] (s_nsk (S n) s) else s in
          if srv x then Ok s1 tt else Ok (log [OFail k] (s_acc None s1)) tt
      | None => Crash
      end
    | None => Disabled
    end
  | EStop o => match objs s !! o with Some x => Ok (log [OStop o] (put o (set_srv x false) s)) tt | None => Disabled end
  | ETake o good =>                                                      (* src/kserver.c:49-64 *)
    if negb (thread_free s) then Disabled else
    match objs s !! o with
    | Some x =>
      match kd x with
      | KListen => Ok (log (match acs x with Some n => [if good then OHand n else OSockClose n] | None => [] end) (put o (set_acs x None) s)) tt
      | _ => Disabled
      end
    | None => Disabled
    end
  | ENext v ok =>                                                        (* 259-278 *)
    let k := nx s in
    if ok then Ok (log [OPost k v] (s_nx (S k) (s_cq (cq s ++ [KNext k v]) (s_heap ({[k]} ∪ heap s) s)))) tt
    else Ok (log [OPost k v; ODrop k] (s_nx (S k) s)) tt
  | EKernel i v =>
    match pend s !! i with
    | Some p =>
      if decide (kd <$> objs s !! (p.1.1) = Some (KUdp false)) then Crash      (* WSARecvFrom was given the address of a local variable of
                                                                              iocp_selector_recvmsg, which the kernel writes to now *)
      else Ok (log [OKern (p.2) v] (s_cq (cq s ++ [KOp p v]) (s_pend (delete i (pend s)) s))) tt
    | None => Disabled
    end
  | ESelect =>                                                           (* 404-436 *)
    if negb (thread_free s && pc_idle s) then Disabled else
    match cq s with
    | [] => Disabled
    | KOp (o, d, _) v :: l => handle (s_cq l s) o d v
    | KNext k v :: l =>                                                  (* handle_complete_event on next_st, next_call_back, 25-31 *)
      if decide (k ∈ heap s) then Ok (log [OCb k v] (s_heap (heap s ∖ {[k]}) (s_cq l s))) tt else Crash
    end
  | EReady o =>                                                          (* src/kselector.c:237-251 *)
    if negb (thread_free s && pc_idle s) then Disabled else
    match objs s !! o with
    | Some x =>
      if decide (loc x = Some LReady) then Ok (s_pc (PW o (bz (sr x)) (bz (sw x)) (f2 (sr x)) (f2 (sw x))) (put o (set_loc x None) s)) tt else Disabled
    | None => Disabled
    end
  | EPart =>
    if negb (thread_free s) then Disabled else
    match pc s with
    | PW o r w r2 w2 =>                                                  (* 252-255 *)
      if w2 && w then match ready_event s o W with Ok s u => Ok (s_pc (PR o r false r2) s) u | x => x end else Ok (s_pc (PR o r w r2) s) tt
    | PR o r w r2 =>                                                     (* 256-259 *)
      if r2 && r then match ready_event s o R with Ok s u => Ok (s_pc (PE o false w) s) u | x => x end else Ok (s_pc (PE o r w) s) tt
    | PE o r w =>                                                        (* 260-266 *)
      if r || w then
        match objs s !! o with
        | Some x => Ok (s_pc PIdle (put o (list_rw x) s)) tt
        | None => Crash
        end
      else Ok (s_pc PIdle s) tt
    | PIdle => Disabled
    end
  | ETimeout o lf =>                                                   (* src/kselector.c:158-199 *)
    if negb (thread_free s && pc_idle s) then Disabled else
    match objs s !! o with
    | Some x =>
      match loc x with
      | Some LConn | Some LRw =>
        if lf then Ok s tt
        else if rto x && bz (sr x) then Ok (log [OTmo (rqo x R)] s) tt
        else Ok (log [OShut o] (put o (set_shut (set_loc x None) true) s)) tt
      | _ => Disabled
      end
    | None => Disabled
    end
  end.
Definition init : sys := Sys ∅ [] [] ∅ PIdle None 0 0 [].
