(** Model of the creation of TLS contexts, src/kgl_ssl.c: kgl_ssl_ctx_new (364-411), kgl_ssl_ctx_new_client (412-441), kgl_ssl_password_callback
    (459-476), kgl_ssl_load_certificate (478-545), kgl_ssl_load_certificate_key (546-602), kgl_ssl_certificate (604-672), the session id
    context from a buffer and from a file (276-362), kgl_ssl_ctx_post_init (675-713), kgl_ssl_ctx_load_cert_key (714-737),
    kgl_ssl_ctx_new_server2 and kgl_ssl_ctx_new_server (738-764).

    A call runs from beginning to end in one thread.  OpenSSL is modelled by its documented ownership rules; every call that may fail may
    fail at any time ([fail], indexed by the number of the call).  [None] = an object is used or freed after it was freed, or a NULL or
    out-of-bounds pointer is read.
    Simplified: one context at a time (the code touches no other); a text is the list of its PEM blocks; the options of the context are
    reduced to the protocol versions, verification, authorities, session cache, session id context, SNI and ALPN callbacks; the branch of
    SSL_CTX_set0_chain (OpenSSL >= 1.0.2); the digest is kept as the data it was fed with. *)
From stdpp Require Import gmap.
From Verif Require Import Lts Count.
Local Open Scope Z_scope.

(** a PEM block: a certificate, a private key (with its password), a certificate that does not decode (library and reason of the error) *)
Inductive pem := PCert (c : Z) | PKey (k : Z) (pw : option (list Z)) | PBad (lib reason : nat).
(** a kgl_ref_str_t*: NULL; the empty string; "data:" and a text; the name of a file *)
Inductive src := SNull | SEmpty | SData (n : Z) (t : list pem) | SFile (n : Z).
(** what a digest is fed with: a string (a name), a part of a file *)
Inductive chunk := CName (n : Z) | CPart (n : Z) (i : nat).
Inductive tmp := TBio (all rem : list pem) | TMd (fed : list chunk) | TFp (n : Z) (i len : nat).
Inductive vmode := VNone | VPeer | VPeerFail.
Inductive cache := CDefault | CServer | CBoth.
(** SSL_CTX *)
Record ctx := mkc { c_cert : option nat; c_chain : option nat; c_key : option nat; c_nov2 : bool; c_nov3 : bool; c_ver : vmode;
  c_ca : option (option Z * option Z); c_sid : option (list chunk); c_cache : cache; c_sni : bool; c_alpn : bool }.
(** X509 objects: references and contents; stacks of X509; EVP_PKEY objects; BIO, EVP_MD_CTX and FILE objects; the context; the next
    object; the number of the next call; the last error *)
Record st := mkst { xs : gmap nat Z; xc : nat -> Z; sts : gmap nat (list nat); ks : gmap nat Z; kc : nat -> Z; tmps : gmap nat tmp;
  cx : option ctx; nid : nat; tick : nat; lerr : nat * nat }.
Definition set_xs x s := mkst x (xc s) (sts s) (ks s) (kc s) (tmps s) (cx s) (nid s) (tick s) (lerr s).
Definition set_sts x s := mkst (xs s) (xc s) x (ks s) (kc s) (tmps s) (cx s) (nid s) (tick s) (lerr s).
Definition set_ks x s := mkst (xs s) (xc s) (sts s) x (kc s) (tmps s) (cx s) (nid s) (tick s) (lerr s).
Definition set_tmps x s := mkst (xs s) (xc s) (sts s) (ks s) (kc s) x (cx s) (nid s) (tick s) (lerr s).
Definition set_cx x s := mkst (xs s) (xc s) (sts s) (ks s) (kc s) (tmps s) x (nid s) (tick s) (lerr s).
Definition set_err x s := mkst (xs s) (xc s) (sts s) (ks s) (kc s) (tmps s) (cx s) (nid s) (tick s) x.

Definition M A := st -> option (A * st).
Definition ret {A} (a : A) : M A := λ s, Some (a, s).
Definition bind {A B} (m : M A) (k : A -> M B) : M B := λ s, match m s with Some (a, s) => k a s | None => None end.
Definition crash {A} : M A := λ _, None.
Notation "'let*' x := m 'in' k" := (bind m (λ x, k)) (at level 200, x binder, k at level 200).
Notation "m ;;; k" := (bind m (λ _ : unit, k)) (at level 100, k at level 200, right associativity).
(** ERR_GET_REASON of PEM_R_NO_START_LINE; its library *)
Definition NO_START_LINE : nat := 108.
Definition LIB_PEM : nat := 9.

Section code.
(** which calls fail; the password typed at the terminal; the files: PEM blocks and length; whether certificate and key belong together *)
Context (fail : nat -> bool) (tty : list Z) (files : Z -> option (list pem * nat)) (match_ : Z -> Z -> bool).

(** * OpenSSL *)
Definition coin : M bool := λ s, Some (fail (tick s), mkst (xs s) (xc s) (sts s) (ks s) (kc s) (tmps s) (cx s) (nid s) (S (tick s)) (lerr s)).
Definition error (e : nat * nat) : M unit := λ s, Some (tt, set_err e s).
Definition new_x (c : Z) : M nat := λ s, Some (nid s, mkst (<[nid s := 1]> (xs s)) (λ i, if decide (i = nid s) then c else xc s i) (sts s) (ks s) (kc s) (tmps s) (cx s) (S (nid s)) (tick s) (lerr s)).
Definition new_k (k : Z) : M nat := λ s, Some (nid s, mkst (xs s) (xc s) (sts s) (<[nid s := 1]> (ks s)) (λ i, if decide (i = nid s) then k else kc s i) (tmps s) (cx s) (S (nid s)) (tick s) (lerr s)).
Definition new_st : M nat := λ s, Some (nid s, mkst (xs s) (xc s) (<[nid s := []]> (sts s)) (ks s) (kc s) (tmps s) (cx s) (S (nid s)) (tick s) (lerr s)).
Definition new_tmp (t : tmp) : M nat := λ s, Some (nid s, mkst (xs s) (xc s) (sts s) (ks s) (kc s) (<[nid s := t]> (tmps s)) (cx s) (S (nid s)) (tick s) (lerr s)).
Definition free_tmp (i : nat) : M unit := λ s, match tmps s !! i with Some _ => Some (tt, set_tmps (delete i (tmps s)) s) | None => None end.
Definition get_tmp (i : nat) : M tmp := λ s, match tmps s !! i with Some t => Some (t, s) | None => None end.
Definition put_tmp (i : nat) (t : tmp) : M unit := λ s, match tmps s !! i with Some _ => Some (tt, set_tmps (<[i := t]> (tmps s)) s) | None => None end.
(** X509_free, X509_up_ref; EVP_PKEY_free, EVP_PKEY_up_ref *)
Definition X509_free (x : option nat) : M unit := λ s, match unref (xs s) x with Some h => Some (tt, set_xs h s) | None => None end.
Definition X509_up (x : nat) : M unit := λ s, match ref (xs s) (Some x) with Some h => Some (tt, set_xs h s) | None => None end.
Definition KEY_free (k : option nat) : M unit := λ s, match unref (ks s) k with Some h => Some (tt, set_ks h s) | None => None end.
Definition KEY_up (k : nat) : M unit := λ s, match ref (ks s) (Some k) with Some h => Some (tt, set_ks h s) | None => None end.
Fixpoint free_all (l : list nat) : M unit := match l with [] => ret tt | x :: l => X509_free (Some x) ;;; free_all l end.
(** sk_X509_pop_free(st, X509_free) *)
Definition pop_free (c : option nat) : M unit :=
  match c with
  | None => ret tt
  | Some c => λ s, match sts s !! c with Some l => free_all l (set_sts (delete c (sts s)) s) | None => None end
  end.
(** sk_X509_push *)
Definition push (c x : nat) : M bool :=
  let* f := coin in if f : bool then ret false else λ s, match sts s !! c with Some l => Some (true, set_sts (<[c := l ++ [x]]> (sts s)) s) | None => None end.
(** reading a certificate: looks for the next certificate block; at the end of the text the error is PEM_R_NO_START_LINE *)
Fixpoint next_cert (t : list pem) : list pem :=
  match t with [] => [] | PCert c :: r => PCert c :: r | PBad l e :: r => PBad l e :: r | PKey _ _ :: r => next_cert r end.
Definition PEM_read_X509 (b : nat) : M (option nat) :=
  let* t := get_tmp b in
  match t with
  | TBio all rem =>
    match next_cert rem with
    | [] => put_tmp b (TBio all []) ;;; error (LIB_PEM, NO_START_LINE) ;;; ret None
    | PCert c :: r => put_tmp b (TBio all r) ;;; let* f := coin in if f : bool then error (0, 65)%nat ;;; ret None else let* x := new_x c in ret (Some x)
    | PBad l e :: r => put_tmp b (TBio all r) ;;; error (l, e) ;;; ret None
    | PKey _ _ :: _ => crash
    end
  | _ => crash
  end.
Fixpoint next_key (t : list pem) : option (Z * option (list Z) * list pem) :=
  match t with [] => None | PKey k pw :: r => Some (k, pw, r) | _ :: r => next_key r end.
(** kgl_ssl_password_callback, 459-476, with the 1024 bytes of PEM_BUFSIZE; without a callback OpenSSL asks at the terminal *)
Definition password (passwords : option (list (list Z))) (i : nat) : option (list Z) :=
  match passwords with None => Some tty | Some l => (λ p, if (1024 <? length p)%nat then take 1024 p else p) <$> l !! i end.
(** PEM_read_bio_PrivateKey(bio, NULL, cb, pwd) *)
Definition PEM_read_key (b : nat) (passwords : option (list (list Z))) (i : nat) : M (option nat) :=
  let* t := get_tmp b in
  match t with
  | TBio all rem =>
    match next_key rem with
    | None => put_tmp b (TBio all []) ;;; ret None
    | Some (k, pw, r) =>
      put_tmp b (TBio all r) ;;;
      let* f := coin in if f : bool then ret None else
      match pw with
      | None => let* x := new_k k in ret (Some x)
      | Some pw => match password passwords i with
          | None => crash                                                     (* reads past the array *)
          | Some p => if decide (p = pw) then let* x := new_k k in ret (Some x) else ret None
          end
      end
    end
  | _ => crash
  end.
Definition BIO_reset (b : nat) : M unit := let* t := get_tmp b in match t with TBio all _ => put_tmp b (TBio all all) | _ => crash end.
Definition get_cx : M ctx := λ s, match cx s with Some c => Some (c, s) | None => None end.
Definition put_cx (c : ctx) : M unit := λ s, match cx s with Some _ => Some (tt, set_cx (Some c) s) | None => None end.
Definition with_cert x c := mkc x (c_chain c) (c_key c) (c_nov2 c) (c_nov3 c) (c_ver c) (c_ca c) (c_sid c) (c_cache c) (c_sni c) (c_alpn c).
Definition with_chain x c := mkc (c_cert c) x (c_key c) (c_nov2 c) (c_nov3 c) (c_ver c) (c_ca c) (c_sid c) (c_cache c) (c_sni c) (c_alpn c).
Definition with_key x c := mkc (c_cert c) (c_chain c) x (c_nov2 c) (c_nov3 c) (c_ver c) (c_ca c) (c_sid c) (c_cache c) (c_sni c) (c_alpn c).
Definition with_ver v a c := mkc (c_cert c) (c_chain c) (c_key c) (c_nov2 c) (c_nov3 c) v a (c_sid c) (c_cache c) (c_sni c) (c_alpn c).
Definition with_sid v c := mkc (c_cert c) (c_chain c) (c_key c) (c_nov2 c) (c_nov3 c) (c_ver c) (c_ca c) v (c_cache c) (c_sni c) (c_alpn c).
Definition with_cbs ch sn al c := mkc (c_cert c) (c_chain c) (c_key c) (c_nov2 c) (c_nov3 c) (c_ver c) (c_ca c) (c_sid c) ch sn al.
(** SSL_CTX_use_certificate: the context takes a reference, the certificate it had loses one *)
Definition use_certificate (x : nat) : M bool :=
  let* f := coin in if f : bool then ret false else
  X509_up x ;;; let* c := get_cx in put_cx (with_cert (Some x) c) ;;; X509_free (c_cert c) ;;; ret true.
(** SSL_CTX_set0_chain: takes over the stack, frees the one it had *)
Definition set0_chain (ch : nat) : M bool :=
  let* f := coin in if f : bool then ret false else
  let* c := get_cx in put_cx (with_chain (Some ch) c) ;;; pop_free (c_chain c) ;;; ret true.
Definition use_PrivateKey (k : nat) : M bool :=
  let* f := coin in if f : bool then ret false else
  KEY_up k ;;; let* c := get_cx in put_cx (with_key (Some k) c) ;;; KEY_free (c_key c) ;;; ret true.
Definition SSL_CTX_free : M unit :=
  let* c := get_cx in (λ s, Some (tt, set_cx None s)) ;;; X509_free (c_cert c) ;;; pop_free (c_chain c) ;;; KEY_free (c_key c).
Definition check_private_key : M bool := λ s,
  match cx s with
  | None => None
  | Some c => Some (match c_cert c, c_key c with Some x, Some k => match_ (xc s x) (kc s k) | _, _ => false end, s)
  end.
(** SSL_CTX_load_verify_locations *)
Definition load_verify (f p : option Z) : M bool :=
  let* e := coin in if e : bool then ret false else let* c := get_cx in put_cx (with_ver (c_ver c) (Some (f, p)) c) ;;; ret true.

(** * kgl_ssl.c *)
(** the BIO of 483-499/552-566 *)
Definition open_bio (x : src) : M (option nat) :=
  match x with
  | SNull => crash
  | SEmpty => let* f := coin in ret None                                          (* no file has the empty name *)
  | SData _ t => let* f := coin in if f : bool then ret None else let* b := new_tmp (TBio t t) in ret (Some b)
  | SFile n => let* f := coin in if f : bool then ret None else
      match files n with None => ret None | Some (t, _) => let* b := new_tmp (TBio t t) in ret (Some b) end
  end.
(** 520-528: only the reason of the error is compared; OpenSSL itself compares the library too *)
Definition end_of_text (ossl : bool) (e : nat * nat) : bool := (snd e =? NO_START_LINE)%nat && (negb ossl || (fst e =? LIB_PEM)%nat).
(** 520-543; fuel: one more than the number of blocks; [ossl]: the same loop inside OpenSSL, which frees the certificate it could not push *)
Fixpoint chain_loop (ossl : bool) (fuel : nat) (b x c : nat) : M bool :=
  match fuel with
  | O => crash
  | S fuel =>
    let* t := PEM_read_X509 b in
    match t with
    | None =>
      let* e := (λ s, Some (lerr s, s)) in
      if end_of_text ossl e then ret true
      else free_tmp b ;;; X509_free (Some x) ;;; pop_free (Some c) ;;; ret false
    | Some t =>
      let* ok := push c t in
      if ok : bool then chain_loop ossl fuel b x c
      else (if ossl then X509_free (Some t) else ret tt) ;;; free_tmp b ;;; X509_free (Some x) ;;; pop_free (Some c) ;;; ret false
    end
  end.
(** kgl_ssl_load_certificate, 478-545: the certificate and its chain *)
Definition load_certificate (ossl : bool) (cert : src) : M (option (nat * nat)) :=
  let* b := open_bio cert in
  match b with
  | None => ret None
  | Some b =>
    let* x := PEM_read_X509 b in
    match x with
    | None => free_tmp b ;;; ret None
    | Some x =>
      let* f := coin in
      if f : bool then free_tmp b ;;; X509_free (Some x) ;;; ret None else
      let* c := new_st in
      let* t := get_tmp b in
      let* ok := chain_loop ossl (match t with TBio _ rem => S (length rem) | _ => 0 end) b x c in
      if ok : bool then free_tmp b ;;; ret (Some (x, c)) else ret None
    end
  end.
(** 580-597 *)
Fixpoint key_loop (fuel : nat) (b : nat) (passwords : option (list (list Z))) (tries : Z) (i : nat) : M (option nat) :=
  match fuel with
  | O => crash
  | S fuel =>
    let* k := PEM_read_key b passwords i in
    match k with
    | Some k => free_tmp b ;;; ret (Some k)
    | None => if bool_decide (tries > 1) then BIO_reset b ;;; key_loop fuel b passwords (tries - 1) (S i) else free_tmp b ;;; ret None
    end
  end.
(** kgl_ssl_load_certificate_key, 546-602 *)
Definition load_certificate_key (key : src) (passwords : option (list (list Z))) : M (option nat) :=
  let* b := open_bio key in
  match b with
  | None => ret None
  | Some b => let n := match passwords with Some l => length l | None => 1%nat end in key_loop (S n) b passwords (Z.of_nat n) 0
  end.
(** kgl_ssl_certificate, 604-672 *)
Definition kgl_ssl_certificate (cert key : src) (passwords : option (list (list Z))) : M bool :=
  let cert := match cert with SNull | SEmpty => key | _ => cert end in
  let* x := load_certificate false cert in
  match x with
  | None => ret false
  | Some (x, chain) =>
    let* ok := use_certificate x in
    if negb ok then X509_free (Some x) ;;; pop_free (Some chain) ;;; ret false else
    let* ok := set0_chain chain in
    if negb ok then pop_free (Some chain) ;;; ret false else
    let* k := load_certificate_key key passwords in
    match k with
    | None => ret false
    | Some k => let* ok := use_PrivateKey k in KEY_free (Some k) ;;; ret ok
    end
  end.
(** EVP_DigestUpdate *)
Definition feed (m : nat) (c : chunk) : M bool :=
  let* f := coin in if f : bool then ret false else
  let* t := get_tmp m in match t with TMd l => put_tmp m (TMd (l ++ [c])) ;;; ret true | _ => crash end.
(** the end of 296-309/347-361 *)
Definition sid_end (m : nat) : M bool :=
  let* f := coin in
  let* t := get_tmp m in
  free_tmp m ;;;
  if f : bool then ret false else
  match t with
  | TMd l => let* f := coin in if f : bool then ret false else let* c := get_cx in put_cx (with_sid (Some l) c) ;;; ret true
  | _ => crash
  end.
(** kgl_ssl_session_id_context_from_buffer, 276-310 (nobody has set a list of client authorities) *)
Definition sid_from_buffer (n : Z) : M bool :=
  let* f := coin in
  if f : bool then ret false else
  let* m := new_tmp (TMd []) in
  let* f := coin in
  if f : bool then free_tmp m ;;; ret false else
  let* ok := feed m (CName n) in
  if negb ok then free_tmp m ;;; ret false else sid_end m.
(** 333-345: at most 2048 times 512 bytes *)
Fixpoint read_loop (fuel : nat) (m fp : nat) (n : Z) (i len : nat) : M unit :=
  match fuel with
  | O => ret tt
  | S fuel =>
    let* _ := get_tmp fp in
    let* f := coin in
    if f || (len <=? 512 * i)%nat then ret tt else
    let* ok := feed m (CPart n i) in
    if ok : bool then read_loop fuel m fp n (S i) len else ret tt
  end.
(** kgl_ssl_session_id_context, 311-362 *)
Definition sid_from_file (n : Z) : M bool :=
  let* f := coin in
  if f : bool then ret false else
  let* m := new_tmp (TMd []) in
  let* f := coin in
  if f : bool then free_tmp m ;;; ret false else
  let* ok := feed m (CName n) in
  if negb ok then free_tmp m ;;; ret false else
  let* f := coin in
  (match (if f : bool then None else files n) with
   | None => ret tt
   | Some (_, len) => let* fp := new_tmp (TFp n 0 len) in read_loop 2048 m fp n 0 len ;;; free_tmp fp
   end) ;;;
  sid_end m.
(** kgl_ssl_ctx_new, 364-411 *)
Definition ctx_new : M bool :=
  let* f := coin in
  if f : bool then ret false else
  (λ s, match cx s with Some _ => None | None => Some (tt, set_cx (Some (mkc None None None true true VNone None None CDefault false false)) s) end) ;;; ret true.
(** SSL_CTX_use_certificate_chain_file: as OpenSSL implements it, with the same parts *)
Definition use_chain_file (n : Z) : M bool :=
  let* l := load_certificate true (SFile n) in
  match l with
  | None => ret false
  | Some (x, chain) =>
    let* ok := use_certificate x in
    X509_free (Some x) ;;;
    if negb ok then pop_free (Some chain) ;;; ret false else
    let* ok := set0_chain chain in
    if negb ok then pop_free (Some chain) ;;; ret false else ret true
  end.
(** SSL_CTX_use_PrivateKey_file *)
Definition use_key_file (n : Z) : M bool :=
  let* k := load_certificate_key (SFile n) None in
  match k with None => ret false | Some k => let* ok := use_PrivateKey k in KEY_free (Some k) ;;; ret ok end.
(** kgl_ssl_ctx_load_cert_key, 714-737; cert = None: NULL or the empty string *)
Definition load_cert_key (cert : option Z) (key : Z) : M bool :=
  let cert := match cert with Some n => n | None => key end in
  let* ok := use_chain_file cert in
  if negb ok then ret false else
  let* ok := use_key_file key in
  if negb ok then ret false else sid_from_file cert.
(** kgl_ssl_ctx_post_init, 675-713; [sni], [npn]: the callbacks are set; [data]: ssl_ctx_data is not NULL *)
Definition post_init (ca_path ca_file : option Z) (sni npn data : bool) : M bool :=
  let* ok := check_private_key in
  if negb ok then SSL_CTX_free ;;; ret false else
  let* ok := (match ca_path, ca_file with
    | None, None => ret true
    | _, _ => (let* c := get_cx in put_cx (with_ver VPeerFail (c_ca c) c)) ;;; load_verify ca_file ca_path
    end) in
  if negb ok then SSL_CTX_free ;;; ret false else
  let* f := coin in
  (let* c := get_cx in put_cx (with_cbs CServer (sni && negb f) (npn && data) c)) ;;; ret true.
(** kgl_ssl_ctx_new_server2, 738-750.  cert_buffer->data is read again at 748 *)
Definition ctx_new_server2 (cert key : src) (ca_path ca_file : option Z) (sni npn data : bool) : M bool :=
  let* ok := ctx_new in
  if negb ok then ret false else
  let* ok := kgl_ssl_certificate cert key None in
  if negb ok then SSL_CTX_free ;;; ret false else
  let* _ := (match cert with SNull => crash | SEmpty => sid_from_buffer 0 | SData n _ | SFile n => sid_from_buffer n end) in
  post_init ca_path ca_file sni npn data.
(** kgl_ssl_ctx_new_server, 751-764 *)
Definition ctx_new_server (cert : option Z) (key : Z) (ca_path ca_file : option Z) (sni npn data : bool) : M bool :=
  let* ok := ctx_new in
  if negb ok then ret false else
  let* ok := load_cert_key cert key in
  if negb ok then SSL_CTX_free ;;; ret false else
  post_init ca_path ca_file sni npn data.
(** kgl_ssl_ctx_new_client, 412-441.  SSL_CTX_set_session_id_context with the 100 bytes of 427-428 always fails (at most 32 are allowed) and the
    result is not looked at, so no session id context is set *)
Definition ctx_new_client (ca_path ca_file : option Z) (npn data : bool) : M bool :=
  let* ok := ctx_new in
  if negb ok then ret false else
  let* ok := (match ca_path, ca_file with
    | None, None => ret true
    | _, _ => (let* c := get_cx in put_cx (with_ver VPeer (c_ca c) c)) ;;; load_verify ca_file ca_path
    end) in
  if negb ok then SSL_CTX_free ;;; ret false else
  (let* c := get_cx in put_cx (with_cbs CBoth false (npn && data) c)) ;;; ret true.
End code.
Definition empty_st : st := mkst ∅ (λ _, 0) ∅ ∅ (λ _, 0) ∅ None 0 0 (0%nat, 0%nat).
