(** Model of the server side TLS callbacks of a connection: kgl_ssl_sni (src/kgl_ssl.c:44-65), kgl_ssl_npn_selected (67-91),
    kgl_ssl_npn_advertise (95-100), the callbacks a context gets in kgl_ssl_ctx_post_init (675-713), the release of the SNI object with the
    connection (src/kconnection.c:60-70), kgl_ssl_get_next_proto_negotiated (831-845).

    OpenSSL: for every ClientHello (the first, the one after a HelloRetryRequest, a renegotiation) it runs the servername callback of the
    current context, or else of the one the connection started with, then the ALPN callback of the context that is current then, if the
    client offered protocols; a fatal result ends the handshake.  SSL_select_next_proto is modelled byte by byte.
    [None]: an assertion fails or memory outside a list is read.
    Simplified: host names and protocol lists are lists of bytes; one connection; the references of contexts are OpenSSL's. *)
From stdpp Require Import list.
Local Open Scope Z_scope.

(** SSL_CTX: servername callback, ALPN callback, ssl_ctx_data *)
Record ctx := mkc { sn_cb : bool; al_cb : bool; data : option Z }.
(** kgl_ssl_create_sni was called with a name and returned an object or not, and a context or not *)
Record call := mkcall { c_name : list Z; c_obj : bool; c_ctx : option nat }.
(** c->sni (named by the number of the call that made it); the context of the SSL object; the calls of kgl_ssl_create_sni; the objects given
    to kgl_ssl_free_sni; the protocol selected by ALPN; the handshake was refused *)
Record st := mkst { sni : option nat; cur : nat; calls : list call; freed : list nat; alpn : option (list Z); refused : bool }.
(** a ClientHello: host name; offered protocols in wire format *)
Record hello := mkh { h_name : option (list Z); h_alpn : option (list Z) }.
(** KGL_HTTP_NPN_ADVERTISE, include/kgl_ssl.h:17 *)
Definition NPN_DEFAULT : list Z := [8; 104; 116; 116; 112; 47; 49; 46; 49].

(** memcmp(&a[i], &b[j], n) == 0; None: out of bounds *)
Fixpoint memeq (a b : list Z) (n : nat) {struct n} : option bool :=
  match n with
  | O => Some true
  | S n => match a, b with x :: a, y :: b => if x =? y then memeq a b n else Some false | _, _ => None end
  end.
(** the inner loop of SSL_select_next_proto: [s] begins with the length byte of a server protocol *)
Fixpoint sel_client (fuel : nat) (s c : list Z) : option bool :=
  match fuel with
  | O => None
  | S fuel =>
    match c with
    | [] => Some false
    | lc :: c' =>
      match s with
      | [] => None
      | ls :: s' =>
        match (if ls =? lc then memeq s' c' (Z.to_nat ls) else Some false) with
        | None => None
        | Some true => Some true
        | Some false => sel_client fuel s (drop (Z.to_nat lc) c')
        end
      end
    end
  end.
(** SSL_select_next_proto: Some None = no overlap *)
Fixpoint select_proto (fuel : nat) (s c : list Z) : option (option (list Z)) :=
  match fuel with
  | O => None
  | S fuel =>
    match s with
    | [] => Some None
    | ls :: s' =>
      match sel_client (S (length c)) s c with
      | None => None
      | Some true => if (length s' <? Z.to_nat ls)%nat then None else Some (Some (take (Z.to_nat ls) s'))
      | Some false => select_proto fuel (drop (Z.to_nat ls) s') c
      end
    end
  end.

Section code.
(** the contexts; the callbacks given to kssl_set_sni_callback and kssl_set_npn_callback; [on]: kgl_ssl_create_sni is not NULL; the server
    has the flag KGL_SERVER_REJECT_NOSNI; the context the connection starts with *)
Context (ctxs : nat -> ctx) (create : nat -> list Z -> bool * option nat) (npn : option Z -> option (list Z)) (on reject : bool) (init : nat).

(** kgl_ssl_sni, 44-65: true = SSL_TLSEXT_ERR_OK, false = SSL_TLSEXT_ERR_ALERT_FATAL *)
Definition kgl_ssl_sni (name : option (list Z)) (s : st) : option (bool * st) :=
  if negb on then None else                                                         (* kassert *)
  match sni s with
  | Some _ => Some (true, s)
  | None =>
    match name with
    | None => Some (negb reject, s)
    | Some name =>
      let '(o, c) := create (length (calls s)) name in
      Some (true, mkst (if o then Some (length (calls s)) else None) (match c with Some c => c | None => cur s end)
                       (calls s ++ [mkcall name o c]) (freed s) (alpn s) (refused s))
    end
  end.
Definition set_alpn x s := mkst (sni s) (cur s) (calls s) (freed s) x (refused s).
Definition refuse s := mkst (sni s) (cur s) (calls s) (freed s) (alpn s) true.
(** kgl_ssl_npn_selected, 67-91; the selected protocol is kept by OpenSSL, SSL_TLSEXT_ERR_NOACK: none is *)
Definition kgl_ssl_npn_selected (name : option (list Z)) (client : list Z) (s : st) : option (bool * st) :=
  match (if on then kgl_ssl_sni name s else Some (true, s)) with
  | None => None
  | Some (false, s) => Some (false, s)
  | Some (true, s) =>
    let mine := match npn (data (ctxs (cur s))) with Some l => l | None => NPN_DEFAULT end in
    match select_proto (S (length mine)) mine client with
    | None => None
    | Some r => Some (true, set_alpn r s)
    end
  end.
(** OpenSSL, one ClientHello *)
Definition client_hello (h : hello) (s : st) : option st :=
  if refused s then Some s else
  match (if sn_cb (ctxs (cur s)) || sn_cb (ctxs init) then kgl_ssl_sni (h_name h) s else Some (true, s)) with
  | None => None
  | Some (false, s) => Some (refuse s)
  | Some (true, s) =>
    match (if al_cb (ctxs (cur s)) then h_alpn h else None) with
    | None => Some (set_alpn None s)
    | Some l => match kgl_ssl_npn_selected (h_name h) l s with
        | None => None
        | Some (false, s) => Some (refuse s)
        | Some (true, s) => Some s
        end
    end
  end.
Definition new_conn : st := mkst None init [] [] None false.
Fixpoint hellos (l : list hello) (s : st) : option st :=
  match l with [] => Some s | h :: l => match client_hello h s with Some s => hellos l s | None => None end end.
(** kconnection_destroy, src/kconnection.c:60-70 *)
Definition destroy (s : st) : st :=
  match sni s with Some o => mkst None (cur s) (calls s) (freed s ++ [o]) (alpn s) (refused s) | None => s end.
End code.
