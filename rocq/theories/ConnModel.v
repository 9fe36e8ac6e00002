(** Model of connection objects: src/kconnection.c:26-114 (kconnection_internal_new, kconnection_new, _new2, _new3, kconnection_real_destroy,
    result_ssl_shutdown, kconnection_destroy, kconnection_half_connect), 208-296 (kconnection_ssl_init, kconnection_ssl_handshake,
    kconnection_new_ssl, kconnection_ssl_connect, kconnection_ssl_accept), src/kselectable.c:141-162 (selectable_clean), src/kudp.c:63-92
    (kudp_new2), src/kserver.c:70-92 (accept_result_new_connection), src/kgl_ssl.c:45-65 (kgl_ssl_sni), src/kfiber.c:514-540
    (kfiber_ssl_shutdown, kfiber_net_close).

    What each connection owns (its memory, pool, descriptor, SSL object, session, SNI object, UDP area, reference to a server) and when it
    is given back.  Every resource has a number of its own that is never used again, so freeing one twice or using a freed connection is a
    [Crash], as are a failing kassert and reading outside an object.  Simplified: malloc does not fail; SSL_new, SSL_set_fd, the socket calls,
    the SNI callback and SSL_shutdown answer as they like; the selector's lists are one bit; ENABLE_KSSL_BIO's BIOs belong to the SSL object. *)
From stdpp Require Export gmap.
From Verif Require Export Lts.

Inductive family := V4 | V6 | UNIX.
#[global] Instance family_dec : EqDecision family. Proof. solve_decision. Defined.
Record addr := mkaddr { fam : family; num : nat }.
#[global] Instance addr_dec : EqDecision addr. Proof. solve_decision. Defined.
(** sizes on 64-bit Linux: sockaddr_i (include/ksocket.h:136-144); sockaddr_un; what may be read from kserver_selectable.accept_addr on
    (accept_addr, addr_len and padding are the end of the object, include/kserver.h:62-78) *)
Definition SZ_I : nat := 32.
Definition SZ_UN : nat := 110.
Definition SZ_ACC : nat := 40.

Inductive kind := KFd | KSsl | KSess | KSni | KUdp | KRef | KPool | KConn.
#[global] Instance kind_dec : EqDecision kind. Proof. solve_decision. Defined.
(** [c_ptr]: addr.u.addr points to the pool; [c_un]: the union server/udp *)
Record conn := mkconn { c_addr : addr; c_ptr : bool; c_pool : nat; c_fd : option nat; c_ssl : option (nat * nat); c_hs : bool; c_shut : bool; c_acc : bool;
  c_sni : option nat; c_isudp : bool; c_un : option nat; c_sel : bool; c_listed : bool; c_err : bool; c_closing : bool }.
(** [live]: resources not given back; [refs]: references to servers held by connections; ghost: [made] who got what, [gone] destroyed
    connections, [log] what was given back, [given] the address of each connection, [conlog] connects (connection, to, bound to) *)
Record st := mkst { nxt : nat; live : gset nat; refs : gmap nat nat; conns : gmap nat conn; made : list (nat * kind * nat); gone : list nat; log : list (kind * nat); given : gmap nat addr; conlog : list (nat * addr * option addr) }.
Definition init : st := mkst 0 ∅ ∅ ∅ [] [] [] ∅ [].
Definition set_conn (c : nat) (x : conn) (s : st) : st := mkst (nxt s) (live s) (refs s) (<[c := x]> (conns s)) (made s) (gone s) (log s) (given s) (conlog s).
Definition ref_of (s : st) (srv : nat) : nat := default 0 (refs s !! srv).
(** a new resource of connection c *)
Definition alloc (c : nat) (k : kind) (s : st) : st := mkst (S (nxt s)) ({[nxt s]} ∪ live s) (refs s) (conns s) (made s ++ [(c, k, nxt s)]) (gone s) (log s) (given s) (conlog s).
Definition add_ref (c srv : nat) (s : st) : st := mkst (nxt s) (live s) (<[srv := S (ref_of s srv)]> (refs s)) (conns s) (made s ++ [(c, KRef, srv)]) (gone s) (log s) (given s) (conlog s).
(** SSL_new followed by SSL_free *)
Definition try_ssl (s : st) : st := mkst (S (nxt s)) (live s) (refs s) (conns s) (made s) (gone s) (log s) (given s) (conlog s).
Definition free1 (s : st) (x : kind * nat) : option st :=
  match x with
  | (KRef, srv) => match ref_of s srv with 0 => None | S n => Some (mkst (nxt s) (live s) (<[srv := n]> (refs s)) (conns s) (made s) (gone s) (log s ++ [x]) (given s) (conlog s)) end
  | (k, r) => if bool_decide (r ∈ live s) then Some (mkst (nxt s) (live s ∖ {[r]}) (refs s) (conns s) (made s) (gone s) (log s ++ [x]) (given s) (conlog s)) else None
  end.
Fixpoint frees (s : st) (l : list (kind * nat)) : option st := match l with [] => Some s | x :: l => match free1 s x with Some s' => frees s' l | None => None end end.

(** kconnection.c:26-33; the connection's number is that of its memory *)
Definition internal_new (a : addr) (ptr : bool) (s : st) : nat * st :=
  let c := nxt s in
  let s1 := alloc c KPool (alloc c KConn s) in
  (c, mkst (nxt s1) (live s1) (refs s1) (<[c := mkconn a ptr (S c) None None false false false None false None false false false false]> (conns s1)) (made s1) (gone s1) (log s1) (<[c := a]> (given s1)) (conlog s1)).
(** kconnection.c:34-59; [len]: bytes that may be read at the source.  None: read outside it *)
Inductive variant := New | New2 | New3.
Definition kconnection_new (v : variant) (a : addr) (len : nat) (s : st) : option (nat * st) :=
  match v with
  | New => if bool_decide (fam a = UNIX) then (if bool_decide (SZ_UN <= len) then Some (internal_new a true s) else None)
           else if bool_decide (SZ_I <= len) then Some (internal_new a false s) else None
  | New2 | New3 => Some (internal_new a false s)  (* copies the smaller of the two sizes *)
  end.
(** what kconnection_real_destroy gives back, in its order (kconnection.c:60-79, kselectable.c:141-162) *)
Definition owned (c : nat) (x : conn) : list (kind * nat) :=
  match c_fd x with Some r => [(KFd, r)] | None => [] end ++
  match c_ssl x with Some (a, b) => [(KSsl, a); (KSess, b)] | None => [] end ++
  match c_sni x with Some r => [(KSni, r)] | None => [] end ++
  match c_un x with Some r => if c_isudp x then [(KUdp, r)] else [(KRef, r)] | None => [] end ++
  [(KPool, c_pool x); (KConn, c)].
Definition real_destroy (c : nat) (x : conn) (s : st) : res st (option nat) :=
  if c_listed x then Crash else
  match frees s (owned c x) with
  | Some s1 => Ok (mkst (nxt s1) (live s1) (refs s1) (delete c (conns s1)) (made s1) (gone s1 ++ [c]) (log s1) (given s1) (conlog s1)) None
  | None => Crash
  end.
(** kconnection.c:251-270, 208-239; [a]: SSL_new failed, SSL_set_fd failed, or fine *)
Inductive sslans := NoSsl | NoFd | Fine.
Definition set_ssl (x : conn) (p : option (nat * nat)) (acc : bool) : conn := mkconn (c_addr x) (c_ptr x) (c_pool x) (c_fd x) p (c_hs x) (c_shut x) acc (c_sni x) (c_isudp x) (c_un x) (c_sel x) (c_listed x) (c_err x) (c_closing x).
Definition ssl_init (c : nat) (x : conn) (acc : bool) (s : st) : option st :=
  match c_ssl x with
  | Some _ => None
  | None => Some (set_conn c (set_ssl x (Some (nxt s, S (nxt s))) acc) (alloc c KSess (alloc c KSsl s)))
  end.
(** None: a kassert failed; the flag is the function's result *)
Definition new_ssl (c : nat) (x : conn) (acc : bool) (a : sslans) (s : st) : option (bool * st) :=
  match a with NoSsl => Some (false, s) | NoFd => Some (false, try_ssl s) | Fine => match ssl_init c x acc s with Some s' => Some (true, s') | None => None end end.
Definition set_fd (x : conn) (r : option nat) : conn := mkconn (c_addr x) (c_ptr x) (c_pool x) r (c_ssl x) (c_hs x) (c_shut x) (c_acc x) (c_sni x) (c_isudp x) (c_un x) (c_sel x) (c_listed x) (c_err x) (c_closing x).
Definition set_sni (x : conn) (r : option nat) : conn := mkconn (c_addr x) (c_ptr x) (c_pool x) (c_fd x) (c_ssl x) (c_hs x) (c_shut x) (c_acc x) r (c_isudp x) (c_un x) (c_sel x) (c_listed x) (c_err x) (c_closing x).
Definition set_un (x : conn) (u : bool) (r : option nat) : conn := mkconn (c_addr x) (c_ptr x) (c_pool x) (c_fd x) (c_ssl x) (c_hs x) (c_shut x) (c_acc x) (c_sni x) u r (c_sel x) (c_listed x) (c_err x) (c_closing x).
(** the bits *)
Definition set_bits (x : conn) (hs shut sel listed err closing : bool) : conn := mkconn (c_addr x) (c_ptr x) (c_pool x) (c_fd x) (c_ssl x) hs shut (c_acc x) (c_sni x) (c_isudp x) (c_un x) sel listed err closing.
Definition with_fd (c : nat) (x : conn) (s : st) : st := set_conn c (set_fd x (Some (nxt s))) (alloc c KFd s).

Inductive ev :=
| ENew (v : variant) (a : addr) (len : nat)
| EHalf (c : nat) (b : option addr) (ok : bool)
| EAccept (srv : nat) (f : family) (n : nat) (got ctx : bool) (a : sslans)      (* accept_result_new_connection *)
| EUdp (pkt ok : bool)                                                         (* kudp_new2 *)
| EBind (c : nat) | EList (c : nat) (b : bool) | EErr (c : nat)                 (* the selector *)
| ESsl (c : nat) (acc : bool) (a : sslans)                                     (* kconnection_ssl_connect / _accept *)
| EHs (c : nat)                                                                (* kconnection_ssl_handshake, kfiber_ssl_handshake *)
| ESni (c : nat) (name obj : bool)                                             (* OpenSSL calls kgl_ssl_sni *)
| EShutF (c : nat)                                                             (* kfiber_ssl_shutdown is through *)
| EDestroy (c : nat) (want : bool)                                             (* kconnection_destroy *)
| EShut (c : nat) (want : bool)                                                (* result_ssl_shutdown *)
| EReal (c : nat).                                                             (* kconnection_real_destroy, kfiber_net_close *)

Definition step (s : st) (e : ev) : res st (option nat) :=
  match e with
  | ENew v a len => match kconnection_new v a len s with Some (c, s') => Ok s' (Some c) | None => Crash end
  | EAccept srv f n got ctx a =>
    if negb got then Ok s None else
    match kconnection_new New (mkaddr f n) SZ_ACC s with
    | None => Crash
    | Some (c, s1) => match conns s1 !! c with None => Crash | Some x =>
      let s2 := with_fd c x s1 in
      let x2 := set_un (set_fd x (Some (nxt s1))) false (Some srv) in
      let s3 := add_ref c srv (set_conn c x2 s2) in
      if ctx then match new_ssl c x2 true a s3 with
                  | None => Crash
                  | Some (true, s4) => Ok s4 (Some c)
                  | Some (false, s4) => real_destroy c x2 s4
                  end
      else Ok s3 (Some c) end
    end
  | EUdp pkt ok =>
    let '(c, s1) := internal_new (mkaddr V4 0) false s in
    match conns s1 !! c with None => Crash | Some x0 =>
    let x := set_un x0 true None in
    if negb ok then real_destroy c x s1 else
    let s2 := with_fd c x s1 in
    let x2 := set_fd x (Some (nxt s1)) in
    let '(x3, s3) := if pkt then (set_un x2 true (Some (nxt s2)), alloc c KUdp s2) else (x2, s2) in
    Ok (set_conn c (set_bits x3 false false true false false false) s3) (Some c) end
  | EHalf c b ok => match conns s !! c with None => Crash | Some x =>
      if bool_decide (fam (c_addr x) = UNIX) && negb (c_ptr x) then Crash else
      let b' := if bool_decide (fam (c_addr x) = UNIX) then None else b in
      let s1 := mkst (nxt s) (live s) (refs s) (conns s) (made s) (gone s) (log s) (given s) (conlog s ++ [(c, c_addr x, b')]) in
      Ok (if ok then with_fd c x s1 else set_conn c (set_fd x None) s1) None end
  | EBind c => match conns s !! c with None => Crash | Some x => Ok (set_conn c (set_bits x (c_hs x) (c_shut x) true (c_listed x) (c_err x) (c_closing x)) s) None end
  | EList c b => match conns s !! c with None => Crash | Some x => Ok (set_conn c (set_bits x (c_hs x) (c_shut x) (c_sel x) b (c_err x) (c_closing x)) s) None end
  | EErr c => match conns s !! c with None => Crash | Some x => Ok (set_conn c (set_bits x (c_hs x) (c_shut x) (c_sel x) (c_listed x) true (c_closing x)) s) None end
  | ESsl c acc a => match conns s !! c with None => Crash | Some x => match new_ssl c x acc a s with Some (_, s') => Ok s' None | None => Crash end end
  | EHs c => match conns s !! c with None => Crash | Some x => match c_ssl x with None => Crash | Some _ => Ok (set_conn c (set_bits x true (c_shut x) (c_sel x) (c_listed x) (c_err x) (c_closing x)) s) None end end
  | ESni c name obj => match conns s !! c with None => Crash | Some x =>
      if negb (c_hs x) then Disabled
      else if negb (c_acc x) then Ok s None        (* SSL_get_ex_data gives NULL *)
      else match c_sni x with Some _ => Ok s None | None =>
        match c_un x with None => Crash | Some _ =>
          if name && obj then Ok (set_conn c (set_sni x (Some (nxt s))) (alloc c KSni s)) None else Ok s None end end end
  | EShutF c => match conns s !! c with None => Crash | Some x => Ok (if c_hs x then set_conn c (set_bits x (c_hs x) true (c_sel x) (c_listed x) (c_err x) (c_closing x)) s else s) None end
  | EDestroy c want => match conns s !! c with None => Crash | Some x =>
      if match c_ssl x with Some _ => c_hs x | None => false end && negb (c_shut x) && negb (c_err x) then
        match c_fd x with None => Crash | Some _ =>
          if want then (if c_sel x && negb (c_listed x) then Ok (set_conn c (set_bits x (c_hs x) (c_shut x) (c_sel x) true (c_err x) true) s) None else Crash)
          else real_destroy c x s end
      else real_destroy c x s end
  | EShut c want => match conns s !! c with None => Disabled | Some x =>
      if negb (c_closing x) then Disabled
      else if want then Ok s None
      else real_destroy c (set_bits x (c_hs x) (c_shut x) (c_sel x) false (c_err x) true) s end
  | EReal c => match conns s !! c with None => Crash | Some x => real_destroy c x s end
  end.
