(** TLS handshake and orderly shutdown of one connection: kconnection_ssl_handshake / kconnection_destroy
    (src/kconnection.c:16-24, 78-104, 121-212, 238-249) and the fiber variants kfiber_ssl_handshake / kfiber_net_close
    (src/kfiber.c:478-542).  Build without ENABLE_KSSL_BIO (the default on Unix, include/kfeature.h:64-69).

    OpenSSL is an oracle: every call of an engine function gets an arbitrary answer.  The socket layer is an oracle too:
    a request made with a NULL buffer (selectable_read / selectable_write) is later completed with 0 (socket ready) or -1
    (registration failed or socket error), which is what C49 gives; the read timeout of kselector_check_timeout
    (src/kselector.c:188-195) is a separate event that leaves the request registered.  A synchronous completion is the
    same as an immediate one.  Data transfer while the session is up is not part of this model (C39-C42, C49). *)
From Verif Require Import Lts.
Local Open Scope Z_scope.

(** include/kgl_ssl.h:28-35 (enum kssl_status) *)
Definition ret_error : Z := 0.
Definition ret_ok : Z := 1.
Definition ret_want_read : Z := 2.
Definition ret_want_write : Z := 3.
Definition ret_sni_resolve : Z := 4.
(** openssl/ssl.h *)
Definition SSL_ERROR_WANT_READ : Z := 2.
Definition SSL_ERROR_WANT_WRITE : Z := 3.
Definition SSL_ERROR_WANT_X509_LOOKUP : Z := 4.
Definition SSL_ERROR_WANT_CONNECT : Z := 7.
Definition SSL_ERROR_WANT_ACCEPT : Z := 8.
Definition SSL_READ_EARLY_DATA_SUCCESS : Z := 1.
Definition SSL_READ_EARLY_DATA_FINISH : Z := 2.

(** answers of the engine in one step: SSL_read_early_data, SSL_do_handshake, SSL_shutdown and the SSL_get_error that
    follows a failing one *)
Record ans := Ans { a_early : Z; a_hs : Z; a_sd : Z; a_err : Z }.

(** what the user sees, and what happens to the connection, in order *)
Inductive obs :=
| OCall (v : Z)   (* the handshake callback is called / the fiber returns from kfiber_ssl_handshake with v *)
| ODestroy.       (* kconnection_real_destroy *)

Inductive phase := Init | Hs | Up | Closing | Gone.

(** [fib]: fiber variant.  [rd], [wr]: STF_READ, STF_WRITE.  [param]: the kconnection_ssl_param record is allocated.
    [early]: try_early_data; [pre]: a byte of early data is stored (early_preread); [shake]: the handshake bit *)
Record st := St { fib : bool; ph : phase; early : bool; pre : bool; shake : bool; rd : bool; wr : bool; param : bool }.

Definition set_ph s p := St (fib s) p (early s) (pre s) (shake s) (rd s) (wr s) (param s).
Definition set_rd s b := St (fib s) (ph s) (early s) (pre s) (shake s) b (wr s) (param s).
Definition set_wr s b := St (fib s) (ph s) (early s) (pre s) (shake s) (rd s) b (param s).
Definition set_param s b := St (fib s) (ph s) (early s) (pre s) (shake s) (rd s) (wr s) b.
Definition set_early s b := St (fib s) (ph s) b (pre s) (shake s) (rd s) (wr s) (param s).
Definition set_pre s b := St (fib s) (ph s) (early s) b (shake s) (rd s) (wr s) (param s).
Definition set_shake s b := St (fib s) (ph s) (early s) (pre s) b (rd s) (wr s) (param s).

(** src/kgl_ssl.c:775-805 kgl_ssl_handshake_status *)
Definition handshake_status (err : Z) : Z :=
  if decide (err = SSL_ERROR_WANT_READ) then ret_want_read
  else if decide (err = SSL_ERROR_WANT_WRITE \/ err = SSL_ERROR_WANT_CONNECT \/ err = SSL_ERROR_WANT_ACCEPT) then ret_want_write
  else if decide (err = SSL_ERROR_WANT_X509_LOOKUP) then ret_sni_resolve
  else ret_error.

(** src/kgl_ssl.c:806-819 kgl_ssl_handshake *)
Definition ssl_handshake (a : ans) : Z := if decide (a_hs a <= 0) then handshake_status (a_err a) else ret_ok.

(** src/kgl_ssl.c:820-834 kgl_ssl_shutdown *)
Definition ssl_shutdown (a : ans) : Z :=
  if decide (a_sd a = 1) then ret_ok
  else if decide (a_err a = SSL_ERROR_WANT_READ) then ret_want_read
  else if decide (a_err a = SSL_ERROR_WANT_WRITE) then ret_want_write
  else ret_error.

(** selectable_read with a NULL buffer: the module's read asserts that no read is registered
    (src/kepoll_selector.c:294, src/kiouring_selector.c:222) *)
Definition req_read (s : st) : res st (list obs) := if rd s then Crash else Ok (set_rd s true) [].
(** src/kselectable.c:546 *)
Definition req_write (s : st) : res st (list obs) := if wr s then Crash else Ok (set_wr s true) [].

(** src/kconnection.c:19-24 ssl_handshake_result, and kfiber_wakeup in src/kfiber.c:495-501.  A record that is already
    freed would be used here: Crash. *)
Definition hs_done (s : st) (okay : bool) : res st (list obs) :=
  if negb (fib s) && negb (param s) then Crash
  else Ok (set_ph (set_param s false) Up) [OCall (if okay then 0 else -1)].

(** src/kconnection.c:202-212 result_ssl_handshake / src/kfiber.c:492-505, without the recursive case *)
Definition hs_result (s : st) (got : Z) : res st (list obs) :=
  if decide (got = -1) then hs_done s false else hs_done s true.

(** src/kconnection.c:147-200 kselectable_ssl_handshake *)
Definition handshake (s : st) (a : ans) : res st (list obs) :=
  if early s && bool_decide (a_early a = SSL_READ_EARLY_DATA_SUCCESS)
  then hs_result (set_pre (set_early s false) true) 1                                     (* 161-168 *)
  else
    let '(s, status) :=
      if early s then
        if decide (a_early a = SSL_READ_EARLY_DATA_FINISH) then (set_early s false, ssl_handshake a)  (* 156-160 *)
        else (s, handshake_status (a_err a))                                              (* 169 *)
      else (s, ssl_handshake a) in                                                        (* 172 *)
    if decide (status = ret_ok) then hs_result s 1                                        (* 185 *)
    else if decide (status = ret_want_read) then req_read s                               (* 187-191 *)
    else if decide (status = ret_want_write) then req_write s                             (* 192-196 *)
    else hs_result s (-1).                                                                (* 197-198 *)

(** src/kconnection.c:62-77 kconnection_real_destroy; selectable_clean (src/kselectable.c:138) asserts that no read and no
    write is registered *)
Definition real_destroy (s : st) : res st (list obs) :=
  if rd s || wr s then Crash else Ok (set_ph s Gone) [ODestroy].

(** src/kconnection.c:121-145 kselectable_ssl_shutdown; the switch compares the status with the SSL_ERROR_ constants *)
Definition shutdown (s : st) (a : ans) : res st (list obs) :=
  let status := ssl_shutdown a in
  if decide (status = SSL_ERROR_WANT_READ) then req_read s
  else if decide (status = SSL_ERROR_WANT_WRITE) then req_write s
  else real_destroy s.                      (* cb 1: src/kconnection.c:87-88; src/kfiber.c:485-487 then 540 *)

(** callback of a socket request that was made by the handshake or the shutdown *)
Definition on_result (s : st) (got : Z) (a : ans) : res st (list obs) :=
  match ph s with
  | Hs => if decide (got = -1 \/ got = 1) then hs_result s got else handshake s a         (* kconnection.c:205-211 *)
  | Closing =>
      if fib s then if decide (got = -1 \/ got = 1) then real_destroy s else shutdown s a  (* kfiber.c:481-490 *)
      else if decide (got = 0) then shutdown s a else real_destroy s                       (* kconnection.c:84-88 *)
  | _ => if fib s then Ok s [] else Crash   (* a callback for a handshake that is over: its record is freed *)
  end.

Inductive ev :=
| Start (a : ans)                 (* kconnection_ssl_handshake / kfiber_ssl_handshake *)
| Destroy (err : bool) (a : ans)  (* kconnection_destroy / kfiber_net_close; err: STF_ERR is set *)
| IoR (got : Z) (a : ans)         (* the registered read request completes *)
| IoW (got : Z) (a : ans)
| Timeout (a : ans).              (* the read timeout of a socket with STF_RTIME_OUT *)

Definition step (s : st) (e : ev) : res st (list obs) :=
  match e with
  | Start a =>
      match ph s with
      | Init => handshake (set_ph (set_shake (set_param s (negb (fib s))) true) Hs) a      (* kconnection.c:238-249 *)
      | _ => Disabled
      end
  | Destroy err a =>
      match ph s with
      | Init | Up =>
          if shake s && negb err then shutdown (set_ph s Closing) a                        (* kconnection.c:91-104 *)
          else real_destroy s
      | _ => Disabled
      end
  | IoR got a => if rd s && bool_decide (got = 0 \/ got = -1) then on_result (set_rd s false) got a else Disabled
  | IoW got a => if wr s && bool_decide (got = 0 \/ got = -1) then on_result (set_wr s false) got a else Disabled
  | Timeout a => if rd s then on_result s (-2) a else Disabled                             (* kselector.c:188-195 *)
  end.

(** [e]: the context allows early data (kconnection.c:232-236) *)
Definition start (f e : bool) : st := St f Init e false false false false false.
