(** Model of receiving on a UDP socket: selectable_recvmsg and selectable_udp_read_event (src/kselectable.c:164-205), kudp_new2
    (src/kudp.c:62-90), kudp_get_recvaddr (28-55), with the way to them: epoll_selector_read and the select loop (src/kepoll_selector.c:288-313,
    400-406; kqueue has the same shape), the poll branch of io_uring (src/kiouring_selector.c:221-232, 385-411), kselectable_is_read_ready
    (include/kselectable.h:109-116), the READY list (src/kselector.c:237-260), ksocket_addr_len (include/ksocket.h:201-214).

    Memory is lists of bytes: c->addr (28 bytes, sockaddr_i), c->udp (40 bytes, the union kudp_extend), the buffers of the read, the sockaddr of
    kudp_get_recvaddr; layouts are those of Linux on 64-bit little endian machines.
    The kernel keeps the queue of datagrams; recvmsg takes the first, or fails with any error and then takes none.  Epoll is edge triggered.
    Simplified: one socket; no timeouts (C28), no sends; registering with epoll or getting an SQE does not fail (C49, C57). *)
From stdpp Require Import list.
From Coq Require Import ZArith Lia.
Local Open Scope Z_scope.

(** a datagram: the sockaddr of its sender; for IPv4 the interface, local address and header destination address of in_pktinfo; its bytes *)
Record dgram := mkd { d_from : list Z; d_if : list Z; d_spec : list Z; d_to : list Z; d_body : list Z }.
(** kepoll_selector.c (or kkqueue); kiouring_selector.c without and with ENABLE_KSSL_BIO *)
Inductive backend := Epoll | Uring | UringBio.
(** backend; created with KSOCKET_ONLY_IPV6; with KSOCKET_IP_PKTINFO *)
Record cfg := mkcfg { be : backend; v6 : bool; pkt : bool }.
(** a completed read: datagram taken; buffers before and after; the value given to the callback; c->addr and c->udp then *)
Record done := mkdone { n_dg : option dgram; n_bufs0 : list (list Z); n_bufs : list (list Z); n_got : Z; n_addr : list Z; n_ext : option (list Z) }.
(** kernel queue; all datagrams that ever arrived; c->addr; c->udp; STF_RREADY; on the READY list; STF_READ with its buffers; STF_REV;
    edge pending in epoll; a poll of io_uring outstanding; number of reads started; completed reads, newest last *)
Record st := mkst { queue : list dgram; arrived : list dgram; addr : list Z; ext : option (list Z); rready : bool; inready : bool;
  reading : option (list (list Z)); rev : bool; edge : bool; poll : bool; reads : nat; log : list done }.

(** bytes written over the beginning of a block *)
Definition over (new old : list Z) : list Z := take (length old) (new ++ drop (length new) old).
Definition put (off : nat) (new old : list Z) : list Z := take off old ++ over new (drop off old).
Definition le16 (l : list Z) : Z := nth 0 l 0 + 256 * nth 1 l 0.
Definition le32 (l : list Z) : Z := le16 l + 65536 * le16 (drop 2 l).
(** scatter: the buffers are filled in order *)
Fixpoint scatter (bufs : list (list Z)) (body : list Z) : list (list Z) :=
  match bufs with
  | [] => []
  | b :: bufs => over (take (length b) body) b :: scatter bufs (drop (length b) body)
  end.
Definition total (bufs : list (list Z)) : nat := length (concat bufs).

(** include/ksocket.h:201-214 *)
Definition ksocket_addr_len (a : list Z) : nat :=
  if le16 a =? 2 then 16 else if le16 a =? 10 then 28 else if le16 a =? 1 then 110 else 28.
(** the control message of the kernel: struct cmsghdr (length, level, type) and struct in_pktinfo, padded; sent for IPv4 datagrams when
    IP_PKTINFO is set (kudp.c:83), the only option kudp_new2 sets *)
Definition cmsg4 (d : dgram) : list Z := [28;0;0;0;0;0;0;0; 0;0;0;0; 8;0;0;0] ++ d_if d ++ d_spec d ++ d_to d.
(** kernel writes at most msg_controllen = sizeof(pktinfo) = 32 bytes *)
Definition control (c : cfg) (d : dgram) : list Z := if pkt c && negb (v6 c) then take 32 (cmsg4 d) else [].

(** how recvmsg ends if it is not for lack of data *)
Inductive outcome := ONorm | OIntr | ONomem | OErr.
(** memset in selectable_recvmsg, kselectable.c:174-177 *)
Definition clear_ext (e : option (list Z)) : option (list Z) := match e with Some l => Some (replicate (length l) 0) | None => None end.

(** the selector's read: epoll_selector_read (kepoll_selector.c:288-313), iouring_selector_read (kiouring_selector.c:221-232); STF_RREADY is
    not set *)
Definition sel_read (c : cfg) (bufs : list (list Z)) (s : st) : st :=
  match be c with
  | Epoll => mkst (queue s) (arrived s) (addr s) (ext s) (rready s) (inready s) (Some bufs) true
               (edge s || (negb (rev s) && match queue s with [] => false | _ => true end)) (poll s) (reads s) (log s)
  | _ => mkst (queue s) (arrived s) (addr s) (ext s) (rready s) (inready s) (Some bufs) (rev s) (edge s) true (reads s) (log s)
  end.
(** result(st->data, arg, got) *)
Definition finish (bufs0 bufs : list (list Z)) (got : Z) (dg : option dgram) (s : st) : st :=
  mkst (queue s) (arrived s) (addr s) (ext s) (rready s) (inready s) None (rev s) (edge s) (poll s) (reads s)
    (log s ++ [mkdone dg bufs0 bufs got (addr s) (ext s)]).
(** selectable_udp_read_event with selectable_recvmsg, kselectable.c:164-205 *)
Definition udp_read_event (c : cfg) (o : outcome) (bufs : list (list Z)) (s : st) : st :=
  let s := mkst (queue s) (arrived s) (addr s) (clear_ext (ext s)) (rready s) (inready s) None (rev s) (edge s) (poll s) (reads s) (log s) in
  let again := sel_read c bufs
     (mkst (queue s) (arrived s) (addr s) (ext s) false (inready s) None (rev s) (edge s) (poll s) (reads s) (log s)) in
  match o with
  | OIntr => again
  | ONomem => finish bufs bufs (-3) None s
  | OErr => finish bufs bufs (-1) None s
  | ONorm =>
    match queue s with
    | [] => again
    | d :: q =>
      let a := over (take (ksocket_addr_len (addr s)) (d_from d)) (addr s) in
      let e := match ext s with Some l => Some (over (control c d) l) | None => None end in
      finish bufs (scatter bufs (d_body d)) (Z.of_nat (Nat.min (length (d_body d)) (total bufs))) (Some d)
        (mkst q (arrived s) a e (rready s) (inready s) None (rev s) (edge s) (poll s) (reads s) (log s))
    end
  end.

Inductive event :=
| Arrive (d : dgram)
| Read (main : bool) (o : outcome) (bufs : list (list Z))  (** a read is started, by the main fiber or another one *)
| Poll                                                     (** the selector learns of the socket *)
| Run (o : outcome).                                       (** the READY list is worked off *)
Definition step (c : cfg) (s : st) (e : event) : option st :=
  match e with
  | Arrive d =>
      Some (mkst (queue s ++ [d]) (arrived s ++ [d]) (addr s) (ext s) (rready s) (inready s) (reading s) (rev s) (edge s || rev s) (poll s)
              (reads s) (log s))
  | Read main o bufs =>
      match reading s with
      | Some _ => None
      | None =>
        let s := mkst (queue s) (arrived s) (addr s) (ext s) (rready s) (inready s) None (rev s) (edge s) (poll s) (S (reads s)) (log s) in
        if rready s then
          if main then Some (mkst (queue s) (arrived s) (addr s) (ext s) (rready s) true (Some bufs) (rev s) (edge s) (poll s) (reads s) (log s))
          else Some (udp_read_event c o bufs s)
        else Some (sel_read c bufs s)
      end
  | Poll =>
      match be c with
      | Epoll =>
          if edge s then
            Some (mkst (queue s) (arrived s) (addr s) (ext s) true (match reading s with Some _ => true | None => inready s end) (reading s)
                    (rev s) false (poll s) (reads s) (log s))
          else None
      | b =>
          match poll s, queue s, reading s with
          | true, _ :: _, Some bufs =>
              let s := mkst (queue s) (arrived s) (addr s) (ext s) (rready s) (inready s) (reading s) (rev s) (edge s) false (reads s) (log s) in
              match b with
              | UringBio => Some (finish bufs bufs 1 None s)      (* POLLIN is given to the callback: kiouring_selector.c:389-396, 415 *)
              | _ => Some (mkst (queue s) (arrived s) (addr s) (ext s) true true (reading s) (rev s) (edge s) (poll s) (reads s) (log s))
              end
          | _, _, _ => None
          end
      end
  | Run o =>
      match inready s with
      | false => None
      | true =>
        let s := mkst (queue s) (arrived s) (addr s) (ext s) (rready s) false (reading s) (rev s) (edge s) (poll s) (reads s) (log s) in
        match reading s with
        | Some bufs => if rready s then Some (udp_read_event c o bufs s) else Some s
        | None => Some s
        end
      end
  end.
(** kudp_new2: the connection is zeroed; c->udp only with KSOCKET_IP_PKTINFO (xmemory_new does not clear: its contents are arbitrary) *)
Definition init (c : cfg) (junk : list Z) : st :=
  mkst [] [] (replicate 28 0) (if pkt c then Some junk else None) false false None false false false 0 [].
Fixpoint run (c : cfg) (s : st) (l : list event) {struct l} : option st :=
  match l with [] => Some s | e :: l => match step c s e with Some s => run c s l | None => None end end.

(** kudp_get_recvaddr(uc, addr), kudp.c:28-55; the caller chose the family of addr *)
Definition kudp_get_recvaddr (e : option (list Z)) (a : list Z) : option (list Z) :=
  match e with
  | None => None
  | Some m =>
    let level := le32 (drop 8 m) in
    let type := le32 (drop 12 m) in
    if le16 a =? 2 then
      if (level =? 0) && (type =? 8) then Some (put 4 (take 4 (drop 24 m)) a) else None
    else
      if (level =? 41) && (type =? 50) then Some (put 8 (take 16 (drop 16 m)) a) else None
  end.
