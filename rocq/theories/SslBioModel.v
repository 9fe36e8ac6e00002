(** TLS over memory BIOs (build with ENABLE_KSSL_BIO: always on Windows, optional elsewhere, include/kfeature.h:64-69):
    src/kssl_bio.c, include/kssl_bio.h and the ENABLE_KSSL_BIO paths of src/kselectable.c (206-289, 354-366, 403-495, 518-557) for one connection whose handshake bit is set.  The TLS engine reads ciphertext from one krw_buffer and writes
    ciphertext to another one; the socket requests move the bytes between these buffers and the kernel.

    The engine is an oracle: one engine call (SSL_read, SSL_write, SSL_do_handshake, SSL_shutdown) makes any sequence of reads
    and writes on its two BIOs and returns anything.  What SSL_read/SSL_write do with several buffers is C41.  The socket
    layer is an oracle too (C49, C57): a registered request completes once, later; the kernel then stores into / loads from the
    memory that the request's iovecs point to.  EAGAIN re-registers the same request (kselectable.c:265-268, 284-287): no
    step.  Requests on the ready list are run later (RunR, RunW); kselectable_is_read_ready / is_write_ready called inside a
    fiber run them at once, which is the same as an immediate RunR / RunW.  Callbacks are called last in every function, so
    whatever the callback does is the next step.  Allocation does not fail.  kassert is checked except kselectable.c:410-413
    (it is about the engine's internal state). *)
From Verif Require Export Lts KbufModel.
Local Open Scope Z_scope.

Notation buf := (krw Z).
(** a kgl_iovec: chunk, offset, length *)
Definition iov : Type := positive * nat * nat.

(** what is observable, in order *)
Inductive obs :=
| Gen (bs : list Z)               (* the engine writes bs to its output BIO *)
| Eat (n : nat) (bs : list Z)     (* the engine asks its input BIO for n bytes and gets bs, not empty *)
| Retry (n : nat)                 (* ... gets "try again" *)
| Eof (n : nat)                   (* ... gets end of file *)
| Sent (bs : list Z)              (* the kernel takes bs from the output iovecs *)
| SendFail (v : Z)                (* the socket write completes with v <= 0 *)
| Recv (bs : list Z)              (* the kernel delivers bs *)
| RecvEnd (v : Z)                 (* the socket read completes with v <= 0 *)
| CallW (k : nat) | Acc (k : nat) (v : Z) | ResW (k : nat) (v : Z)
                                  (* selectable_write number k is called; the engine has taken v bytes of its plaintext (0 for a
                                     call without a buffer); its callback is called with v *)
| CallR (k : nat) | Took (k : nat) (v : Z) | ResR (k : nat) (v : Z)
                                  (* selectable_read number k; SSL_read returned v for it (0: no buffer); callback with v *)
| TmoR (k : nat).                 (* its callback is called with ST_ERR_TIME_OUT, the request stays registered *)

(** STF_READ / STF_WRITE and what is in st->e[].  RReady k b: STF_RREADY2 is set, [b]: a buffer was given.  RSock w len: a socket read
    into the window w of len bytes, callback result_ssl_bio_read; the user's request is then in ssl_bio[OP_READ] *)
Inductive rst := RNone | RReady (k : nat) (b : bool) | RSock (w : positive * nat) (len : nat).
Inductive wst := WNone | WReady (k : nat) (b : bool) | WSock (v : list iov).

(** [rbio], [wbio]: (arg, buffer given) in ssl_bio[OP_READ], arg in ssl_bio[OP_WRITE]; [wgot]: ssl_bio[OP_WRITE].got; [rshut]: the shutdown flag
    of the input BIO; [nbuf]: live kssl_bio_buffer objects; [stale]: STF_WREADY2 is set
    although no write is registered; [next]: ghost, number of the next call *)
Record st := St { rb : buf; wb : buf; rshut : bool; rd : rst; wr : wst; rbio : nat * bool; wbio : nat; wgot : Z;
  nbuf : nat; stale : bool; next : nat; hist : list obs }.
Definition set_rb s x := St x (wb s) (rshut s) (rd s) (wr s) (rbio s) (wbio s) (wgot s) (nbuf s) (stale s) (next s) (hist s).
Definition set_wb s x := St (rb s) x (rshut s) (rd s) (wr s) (rbio s) (wbio s) (wgot s) (nbuf s) (stale s) (next s) (hist s).
Definition set_rshut s x := St (rb s) (wb s) x (rd s) (wr s) (rbio s) (wbio s) (wgot s) (nbuf s) (stale s) (next s) (hist s).
Definition set_rd s x := St (rb s) (wb s) (rshut s) x (wr s) (rbio s) (wbio s) (wgot s) (nbuf s) (stale s) (next s) (hist s).
Definition set_wr s x := St (rb s) (wb s) (rshut s) (rd s) x (rbio s) (wbio s) (wgot s) (nbuf s) (stale s) (next s) (hist s).
Definition set_rbio s x := St (rb s) (wb s) (rshut s) (rd s) (wr s) x (wbio s) (wgot s) (nbuf s) (stale s) (next s) (hist s).
Definition set_wbio s x := St (rb s) (wb s) (rshut s) (rd s) (wr s) (rbio s) x (wgot s) (nbuf s) (stale s) (next s) (hist s).
Definition set_wgot s x := St (rb s) (wb s) (rshut s) (rd s) (wr s) (rbio s) (wbio s) x (nbuf s) (stale s) (next s) (hist s).
Definition set_nbuf s x := St (rb s) (wb s) (rshut s) (rd s) (wr s) (rbio s) (wbio s) (wgot s) x (stale s) (next s) (hist s).
Definition set_nxt s x := St (rb s) (wb s) (rshut s) (rd s) (wr s) (rbio s) (wbio s) (wgot s) (nbuf s) (stale s) x (hist s).
Definition set_stale s x := St (rb s) (wb s) (rshut s) (rd s) (wr s) (rbio s) (wbio s) (wgot s) (nbuf s) x (next s) (hist s).
Definition log s (o : list obs) := St (rb s) (wb s) (rshut s) (rd s) (wr s) (rbio s) (wbio s) (wgot s) (nbuf s) (stale s) (next s) (hist s ++ o).

(** one BIO operation of the engine *)
Inductive bop := BRd (n : nat) | BWr (bs : list Z).
(** src/kssl_bio.c:7-17 kgl_bio_write *)
Definition bio_write (s : st) (bs : list Z) : option st :=
  b ← krw_write_str (length bs) (wb s) bs; Some (log (set_wb s b) [Gen bs]).
(** src/kssl_bio.c:18-37 kgl_bio_read *)
Definition bio_read (s : st) (n : nat) : option st :=
  '(b, got) ← krw_read n (rb s) n [];
  Some (log (set_rb s b) [match got with [] => if rshut s then Eof n else Retry n | _ => Eat n got end]).
Fixpoint engine (s : st) (p : list bop) : option st :=
  match p with
  | [] => Some s
  | BRd n :: p => s ← bio_read s n; engine s p
  | BWr bs :: p => s ← bio_write s bs; engine s p
  end.
(** src/kssl_bio.c:42-48 BIO_CTRL_PENDING *)
Definition pending (b : buf) : Z := total b.

(** src/kbuf.c:75-93 krw_get_read_buffers, the iovecs themselves *)
Definition read_iovs (b : buf) (n : nat) : option (list iov) :=
  match rh b with
  | None => Some []
  | Some _ => '(c, off) ← head_off b;
              Some ((cid c, off, cused c - off)%nat :: ((λ c, (cid c, 0%nat, cused c)) <$> take (n - 1) (tail (ch b))))
  end.
(** the bytes an iovec points to now *)
Definition deref (b : buf) (v : iov) : option (list Z) := c ← get_chunk v.1.1 (ch b); load c v.1.2 v.2.
Definition iov_count : nat := 63.   (* include/kssl_bio.h:18, 39: KGL_MAX_IOVEC_COUNT - 1 *)

(** src/kselectable.c:207-229 selectable_ssl_read, include/kssl_bio.h:29-36 buffer_ssl_bio_read *)
Definition ssl_read (s : st) (k : nat) (b : bool) : option st :=
  let s := set_rbio s (k, b) in
  if decide (pending (rb s) > 0) then _ ← guard_b (match rd s with RNone => true | _ => false end); Some (set_rd s (RReady k b))
  else '(x, w, len) ← krw_get_write_buffer (rb s);
       Some (set_nbuf (set_rd (set_rb s x) (RSock w (Z.to_nat len))) (S (nbuf s))).

(** src/kselectable.c:403-458 selectable_event_read, ssl case.  [p], [v]: what the engine does and what kgl_ssl_readv returns;
    [again]: errno is EAGAIN or SSL_get_error gives WANT_READ *)
Definition event_read (s : st) (k : nat) (b : bool) (p : list bop) (v : Z) (again : bool) : option st :=
  if negb b then Some (log s [Took k 0; ResR k 0]) else
  s ← engine s p;
  let s := log s [Took k v] in
  if decide (v >= 0) then Some (log s [ResR k v])
  else if again then ssl_read s k b else Some (log s [ResR k v]).

(** src/kselectable.c:230-252 selectable_ssl_write, include/kssl_bio.h:37-41 buffer_ssl_bio_write *)
Definition ssl_write (s : st) (k : nat) (b : bool) (p : list bop) (v : Z) : option st :=
  s ← (if b then s ← engine s p; Some (set_wgot s v) else Some (set_wgot s 0));
  let s := log s [Acc k (wgot s)] in
  if decide (pending (wb s) <= 0) then Some (set_wr s (WReady k b))
  else let s := set_wbio s k in
       v ← read_iovs (wb s) iov_count;
       Some (set_nbuf (set_wr s (WSock v)) (S (nbuf s))).

Inductive rcmp := RData (bs : list Z) | REnd (v : Z).
Inductive wcmp := WTake (n : nat) | WFail (v : Z).
Inductive ev :=
| URead (b pend : bool)                            (* selectable_read; [pend]: in_early or SSL_pending > 0 *)
| UWrite (b : bool) (p : list bop) (v : Z)         (* selectable_write *)
| Eng (p : list bop)                               (* SSL_do_handshake, SSL_shutdown *)
| SockR (c : rcmp) (p : list bop) (v : Z) (again : bool)   (* the socket read completes *)
| SockW (c : wcmp)
| Timeout
| RunR (p : list bop) (v : Z) (again : bool)       (* the ready list is processed *)
| RunW
| RunWErr.                                         (* the same with STF_ERR set (by kepoll_selector.c:383) *)

Definition opt {A} (o : option A) : res A unit := match o with Some s => Ok s () | None => Crash end.

Definition step (s : st) (e : ev) : res st unit :=
  match e with
  | URead b pend =>                                                          (* kselectable.c:518-546 *)
      match rd s with
      | RNone => let k := next s in let s := log (set_nxt s (S k)) [CallR k] in
                 if pend then Ok (set_rd s (RReady k b)) () else opt (ssl_read s k b)
      | _ => Disabled
      end
  | UWrite b p v =>                                                          (* kselectable.c:547-557 *)
      match wr s with
      | WNone => let k := next s in if stale s then Crash                      (* the assertion of 549 *)
                 else opt (ssl_write (log (set_nxt s (S k)) [CallW k]) k b p v)
      | _ => Disabled
      end
  | Eng p => opt (engine s p)
  | SockR c p v again =>
      match rd s with
      | RSock w len =>
          let s := set_nbuf (set_rd s RNone) (pred (nbuf s)) in              (* kselectable.c:459-474, 273-289 *)
          match c with
          | RData bs =>
              if decide (1 <= length bs <= len)%nat then
                opt (x ← poke (rb s) w bs; x ← krw_write_success x (length bs);   (* kssl_bio.c:140-147 *)
                     event_read (log (set_rb s x) [Recv bs]) (rbio s).1 (rbio s).2 p v again)
              else Disabled
          | REnd r =>
              if decide (r = 0 \/ r = -1) then
                opt (event_read (log (set_rshut s true) [RecvEnd r]) (rbio s).1 (rbio s).2 p v again)
              else Disabled
          end
      | _ => Disabled
      end
  | SockW c =>
      match wr s with
      | WSock v =>
          let s := set_wr s WNone in
          match c with
          | WTake n =>                                                       (* kssl_bio.c:159-164 *)
              match mapM (deref (wb s)) v with
              | Some l =>
                  if decide (1 <= n <= length (concat l))%nat then
                    opt ('(x, more) ← krw_read_success (wb s) n;
                         let s := log (set_wb s x) [Sent (take n (concat l))] in
                         if (more : bool) then v ← read_iovs (wb s) iov_count; Some (set_wr s (WSock v))
                         else Some (log (set_nbuf s (pred (nbuf s))) [ResW (wbio s) (wgot s)]))
                  else Disabled
              | None => Crash
              end
          | WFail r =>                                                       (* kssl_bio.c:155-158 *)
              if decide (r <= 0) then Ok (log (set_nbuf s (pred (nbuf s))) [SendFail r; ResW (wbio s) r]) () else Disabled
          end
      | _ => Disabled
      end
  | Timeout =>                                                               (* kssl_bio.c:136-139 *)
      match rd s with RSock _ _ => Ok (log s [TmoR (rbio s).1]) () | _ => Disabled end
  | RunR p v again =>                                                        (* kselectable.c:459-475 *)
      match rd s with RReady k b => opt (event_read (set_rd s RNone) k b p v again) | _ => Disabled end
  | RunW =>                                                                  (* kselectable.c:476-495, 354-366 *)
      match wr s with
      | WReady k b =>
          let s := set_wr s WNone in
          if b then if decide (pending (wb s) <= 0) then Ok (log s [ResW k (wgot s)]) () else Crash    (* the assertion of 362 *)
          else Ok (log s [ResW k 0]) ()
      | _ => Disabled
      end
  | RunWErr =>                                                               (* kselectable.c:485-488: STF_WREADY2 stays set *)
      match wr s with WReady k b => Ok (log (set_stale (set_wr s WNone) true) [SendFail (-1); ResW k (-1)]) () | _ => Disabled end
  end.
(** src/kssl_bio.c:66-77 kgl_bio_new; [n]: the chunk size, 16384 *)
Definition init (n : nat) : st := St (krw_init n 1) (krw_init n 1) false RNone WNone (0%nat, false) 0 0 0 false 0 [].
