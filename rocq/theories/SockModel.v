(** Model of the socket openers: src/ksocket.c:129-165 (ksocket_new_udp), 166-236 (ksocket_listen), 245-263 (ksocket_accept), 307-342
    (wait_socket_event), 343-371 (ksocket_connect), 372-428 (ksocket_half_connect), include/ksocket.h:230-237 (ksocket_no_block),
    272 (ksocket_close); POSIX branches (no _WIN32, no KGL_IOCP).

    Each function is a tree of system calls whose answers the environment chooses ([prog]); any number of threads run
    them, one system call per step, in any interleaving.  The system keeps the open descriptors, the thread that opened each, and
    what was done to it.  Using a descriptor that is not open or belongs to another thread is a [Crash] (a double close shows so: the
    number may be another thread's by then).  Simplified:
    - an address is a family and a number; options are what setsockopt was asked to switch on; a failing setsockopt or ioctl
      changes nothing;
    - poll and select are one call [Wait];
    - paths of UNIX addresses: nothing, a socket or another file; other processes may change them at any time.
    [cx]: SOCK_CLOEXEC is defined; [a4]: HAVE_ACCEPT4 (not ANDROID).  SO_REUSEPORT, IPV6_V6ONLY, TCP_FASTOPEN, IP_TRANSPARENT, SO_MARK,
    KSOCKET_UNIX and KSOCKET_TPROXY are defined. *)
From stdpp Require Export gmap.
From Verif Require Export Lts.
Local Open Scope Z_scope.

Inductive family := V4 | V6 | UNIX.
#[global] Instance family_dec : EqDecision family. Proof. solve_decision. Defined.
Record addr := mkaddr { fam : family; num : nat }.
#[global] Instance addr_dec : EqDecision addr. Proof. solve_decision. Defined.
Inductive opt := REUSEADDR | REUSEPORT | V6ONLY | FASTOPEN | TRANSPARENT | MARK (z : Z).
#[global] Instance opt_dec : EqDecision opt. Proof. solve_decision. Defined.
(** include/ksocket.h:47-59 *)
Record flags := mkfl { f_block : bool; f_reuseport : bool; f_v6 : bool; f_fast : bool; f_tproxy : bool }.

Inductive call :=
| Socket (f : family) (dgram cloexec nonblock : bool)
| SetOpt (fd : nat) (o : opt) | NoBlock (fd : nat)
| Bind (fd : nat) (a : addr) | Listen (fd : nat) | Connect (fd : nat) (a : addr) | Wait (fd : nat) (wr : bool) (ms : Z)
| Accept (fd : nat) (cloexec nonblock : bool) | Close (fd : nat)
| Stat (p : nat) | Unlink (p : nat).
Inductive ans := AFd (fd : nat) | AOk | AErr (progress : bool) | AStat (k : option bool).
(** [progress]: errno is EINPROGRESS; AStat (Some true): a socket, (Some false): another file *)
Inductive prog := Ret (r : option nat) | Do (c : call) (k : ans -> prog).

(** a sequence of setsockopt calls whose results are ignored *)
Fixpoint setopts (fd : nat) (l : list opt) (p : prog) : prog := match l with [] => p | o :: l => Do (SetOpt fd o) (fun _ => setopts fd l p) end.
(** ksocket.h:230-237 *)
Definition no_block (fd : nat) (b : bool) (p : prog) : prog := if b then Do (NoBlock fd) (fun _ => p) else p.
Definition failed (a : ans) : bool := match a with AErr _ => true | _ => false end.
(** close and give up *)
Definition give_up (fd : nat) : prog := Do (Close fd) (fun _ => Ret None).
(** a socket, nonblocking or not; without SOCK_CLOEXEC kfile_close_on_exec is called, which does nothing on POSIX (C69) *)
Definition new_sock (cx : bool) (f : family) (dgram nb : bool) (k : nat -> prog) : prog :=
  Do (Socket f dgram cx (cx && nb)) (fun a => match a with AFd fd => no_block fd (negb cx && nb) (k fd) | _ => Ret None end).
(** ksocket.c:149-158 *)
Definition udp_opts (fl : flags) : list opt := (if f_reuseport fl then [REUSEPORT] else []) ++ (if f_v6 fl then [V6ONLY] else []).
Definition ksocket_new_udp (cx : bool) (f : family) (fl : flags) : prog :=
  new_sock cx f true (negb (f_block fl)) (fun fd => setopts fd (udp_opts fl) (Ret (Some fd))).
(** ksocket.c:199-225 *)
Definition listen_opts (fl : flags) : list opt :=
  [REUSEADDR] ++ (if f_reuseport fl then [REUSEPORT] else []) ++ (if f_v6 fl then [V6ONLY] else []) ++ (if f_fast fl then [FASTOPEN] else []) ++ (if f_tproxy fl then [TRANSPARENT] else []).
Definition ksocket_listen (cx : bool) (a : addr) (fl : flags) : prog :=
  let rest := new_sock cx (fam a) false (negb (f_block fl)) (fun fd =>
    setopts fd (listen_opts fl) (Do (Bind fd a) (fun r => if failed r then give_up fd else
      Do (Listen fd) (fun r => if failed r then give_up fd else Ret (Some fd))))) in
  if bool_decide (fam a = UNIX) then Do (Stat (num a)) (fun r => match r with AStat (Some true) => Do (Unlink (num a)) (fun _ => rest) | _ => rest end) else rest.
(** ksocket.c:245-263 *)
Definition ksocket_accept (a4 : bool) (s : nat) (nb : bool) : prog :=
  if a4 then Do (Accept s true nb) (fun a => match a with AFd fd => Ret (Some fd) | _ => Ret None end)
  else Do (Accept s false false) (fun a => match a with AFd fd => no_block fd nb (Ret (Some fd)) | _ => Ret None end).
(** ksocket.c:307-342 *)
Definition wait_socket_event (fd : nat) (wr : bool) (tmo : Z) (k : bool -> prog) : prog :=
  if bool_decide (tmo <= 0) then k true else Do (Wait fd wr (tmo * 1000)) (fun r => k (negb (failed r))).
Definition bind_to (fd : nat) (b : option addr) (p : prog) : prog :=
  match b with None => p | Some b => Do (Bind fd b) (fun r => if failed r then give_up fd else p) end.
(** ksocket.c:343-371 *)
Definition ksocket_connect (cx : bool) (a : addr) (b : option addr) (tmo : Z) : prog :=
  new_sock cx (fam a) false false (fun fd => bind_to fd b
    (Do (Connect fd a) (fun r => if failed r then give_up fd else
      wait_socket_event fd true tmo (fun ok => if ok then Ret (Some fd) else give_up fd)))).
(** ksocket.c:372-428 *)
Definition tproxy_opts (mask : Z) : list opt := if bool_decide (0 < mask) then [TRANSPARENT; MARK mask] else [].
Definition ksocket_half_connect (cx : bool) (a : addr) (b : option addr) (mask : Z) : prog :=
  Do (Socket (fam a) false cx cx) (fun x => match x with
  | AFd fd =>
    setopts fd (match b with Some _ => tproxy_opts mask | None => [] end) (bind_to fd b
      (no_block fd (negb cx) (Do (Connect fd a) (fun r => match r with
        | AErr progress => if progress then Ret (Some fd) else give_up fd
        | _ => Ret (Some fd) end))))
  | _ => Ret None end).
Definition ksocket_close (fd : nat) : prog := Do (Close fd) (fun _ => Ret None).

(** * The system *)
(** [bound]: the address, with the options that were on at that time; [conn]: the peer, and whether the connection is established *)
Record sock := mksock { sdom : family; dgram_ : bool; cloexec_ : bool; nonblock_ : bool; opts : list opt; bound : option (addr * list opt); lis : bool; conn : option (addr * bool) }.
Definition sk_opt (o : opt) k := mksock (sdom k) (dgram_ k) (cloexec_ k) (nonblock_ k) (opts k ++ [o]) (bound k) (lis k) (conn k).
Definition sk_nb k := mksock (sdom k) (dgram_ k) (cloexec_ k) true (opts k) (bound k) (lis k) (conn k).
Definition sk_bind a k := mksock (sdom k) (dgram_ k) (cloexec_ k) (nonblock_ k) (opts k) (Some (a, opts k)) (lis k) (conn k).
Definition sk_listen k := mksock (sdom k) (dgram_ k) (cloexec_ k) (nonblock_ k) (opts k) (bound k) true (conn k).
Definition sk_conn a d k := mksock (sdom k) (dgram_ k) (cloexec_ k) (nonblock_ k) (opts k) (bound k) (lis k) (Some (a, d)).
(** the descriptor a call works on *)
Definition target (c : call) : option nat :=
  match c with SetOpt fd _ | NoBlock fd | Bind fd _ | Listen fd | Connect fd _ | Wait fd _ _ | Accept fd _ _ | Close fd => Some fd | _ => None end.
(** the descriptor a call opens *)
Definition opens (c : call) (a : ans) : option nat := match c, a with Socket _ _ _ _, AFd fd | Accept _ _ _, AFd fd => Some fd | _, _ => None end.
(** which answers a call can get *)
Definition fits (c : call) (a : ans) : bool :=
  match c, a with
  | (Socket _ _ _ _ | Accept _ _ _), (AFd _ | AErr false) => true
  | (SetOpt _ _ | NoBlock _ | Bind _ _ | Listen _ | Wait _ _ _ | Unlink _), (AOk | AErr false) => true
  | Connect _ _, (AOk | AErr _) => true
  | Close _, AOk => true
  | Stat _, AStat _ => true
  | _, _ => false
  end.
(** what the call does to the descriptors of its thread *)
Definition effect (c : call) (a : ans) (m : gmap nat sock) : gmap nat sock :=
  match c, a with
  | Socket f d cl nb, AFd fd => <[fd := mksock f d cl nb [] None false None]> m
  | Accept s cl nb, AFd fd => <[fd := mksock (match m !! s with Some k => sdom k | None => V4 end) false cl nb [] None false None]> m
  | SetOpt fd o, AOk => alter (sk_opt o) fd m
  | NoBlock fd, AOk => alter sk_nb fd m
  | Bind fd a, AOk => alter (sk_bind a) fd m
  | Listen fd, AOk => alter sk_listen fd m
  | Connect fd a, AOk => alter (sk_conn a true) fd m
  | Connect fd a, AErr true => alter (sk_conn a false) fd m
  | Close fd, _ => delete fd m
  | _, _ => m
  end.

(** * Threads *)
Inductive api := FListen (a : addr) (fl : flags) | FUdp (f : family) (fl : flags) | FAccept (s : nat) (nb : bool) | FConnect (a : addr) (b : option addr) (tmo : Z) | FHalf (a : addr) (b : option addr) (mask : Z) | FClose (fd : nat).
Definition body (cx a4 : bool) (f : api) : prog :=
  match f with
  | FListen a fl => ksocket_listen cx a fl | FUdp x fl => ksocket_new_udp cx x fl | FAccept s nb => ksocket_accept a4 s nb
  | FConnect a b tmo => ksocket_connect cx a b tmo | FHalf a b mask => ksocket_half_connect cx a b mask | FClose fd => ksocket_close fd
  end.
(** a call under way: what is left of it; ghost: the function, the system calls so far, the thread's descriptors at its beginning *)
Record run_ := mkrun { pc : prog; fn : api; hist : list (call * ans); held0 : gmap nat sock }.
(** [owns]: descriptors of each thread; [thr]: calls under way; [fs]: paths; [clk]: the clock; ghost [done]: calls that returned
    (thread, function, system calls, descriptors before, result, descriptors after) *)
Record ret := mkret { r_t : nat; r_f : api; r_h : list (call * ans); r_0 : gmap nat sock; r_v : option nat; r_1 : gmap nat sock }.
Record st := mkst { owns : gmap nat (gmap nat sock); thr : gmap nat run_; fs : gmap nat bool; clk : Z; done_ : list ret }.
Definition init : st := mkst ∅ ∅ ∅ 0 [].
Definition own (s : st) (t : nat) : gmap nat sock := default ∅ (owns s !! t).
(** the number is in use *)
Definition used (s : st) (fd : nat) : bool := existsb (fun m => bool_decide (is_Some (m !! fd))) (map_to_list (owns s)).*2.

(** ECall: a thread calls a function; ESys: its next system call gets this answer; EFs: somebody else changes a path; ETick: time *)
Inductive ev := ECall (t : nat) (f : api) | ESys (t : nat) (a : ans) | EFs (p : nat) (k : option bool) | ETick (d : nat).
Definition paths (c : call) (a : ans) (m : gmap nat bool) : gmap nat bool := match c, a with Unlink p, AOk => delete p m | _, _ => m end.
(** the call returns as soon as nothing is left to do *)
Definition settle (t : nat) (r : run_) (s : st) : st :=
  match pc r with
  | Ret v => mkst (owns s) (delete t (thr s)) (fs s) (clk s) (done_ s ++ [mkret t (fn r) (hist r) (held0 r) v (own s t)])
  | _ => mkst (owns s) (<[t := r]> (thr s)) (fs s) (clk s) (done_ s)
  end.
Definition step (cx a4 : bool) (s : st) (e : ev) : res st unit :=
  match e with
  | ECall t f => match thr s !! t with Some _ => Disabled | None => Ok (settle t (mkrun (body cx a4 f) f [] (own s t)) s) tt end
  | ESys t a =>
    match thr s !! t with
    | Some r => match pc r with
      | Do c k =>
        if negb (fits c a) then Disabled
        else if match c, a with Stat p, AStat x => negb (bool_decide (fs s !! p = x)) | _, _ => false end then Disabled
        else if match opens c a with Some fd => used s fd | None => false end then Disabled
        else if match target c with Some fd => negb (bool_decide (is_Some (own s t !! fd))) | None => false end then Crash
        else Ok (settle t (mkrun (k a) (fn r) (hist r ++ [(c, a)]) (held0 r)) (mkst (<[t := effect c a (own s t)]> (owns s)) (thr s) (paths c a (fs s)) (clk s) (done_ s))) tt
      | Ret _ => Disabled end
    | None => Disabled
    end
  | EFs p k => Ok (mkst (owns s) (thr s) (match k with Some b => <[p := b]> (fs s) | None => delete p (fs s) end) (clk s) (done_ s)) tt
  | ETick d => Ok (mkst (owns s) (thr s) (fs s) (clk s + Z.of_nat d) (done_ s)) tt
  end.
