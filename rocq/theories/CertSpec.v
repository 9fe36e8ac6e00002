(** Specification of C73: what a TLS context built from PEM texts contains, and who owns what. *)
From stdpp Require Import gmap.
From Verif Require Import Count CertModel.
Local Open Scope Z_scope.

(** the certificates, the undecodable blocks (library, reason) and the private keys of a text, in order *)
Definition certs_in (t : list pem) : list Z := omap (λ p, match p with PCert c => Some c | _ => None end) t.
Definition bad_in (t : list pem) : list (nat * nat) := omap (λ p, match p with PBad l e => Some (l, e) | _ => None end) t.
Definition keys_in (t : list pem) : list (Z * option (list Z)) := omap (λ p, match p with PKey k pw => Some (k, pw) | _ => None end) t.
(** the text a name or a "data:" string stands for *)
Definition text (files : Z -> option (list pem * nat)) (x : src) : option (list pem) :=
  match x with SData _ t => Some t | SFile n => fst <$> files n | _ => None end.
(** the passwords that open a key: any if it is not encrypted *)
Definition opens (pw : option (list Z)) (p : list Z) : Prop := match pw with None => True | Some q => q = take 1024 p end.

(** references to X509 objects from the context and from stacks of certificates, plus those in [L]; stacks are owned by the context or
    listed in [S]; keys by the context or [K]; BIO, digest and FILE objects are those in [T] *)
Definition pres {A} (m : gmap nat A) (i : nat) : Z := match m !! i with Some _ => 1 | None => 0 end.
Definition held (f : ctx -> option nat) (s : st) (i : nat) : Z := match cx s with Some c => oz (f c) i | None => 0 end.
Record owned (s : st) (L S K T : list nat) : Prop := {
  o_x : forall i, hget (xs s) i = occ i L + held c_cert s i + summ (occ i) (sts s);
  o_xpos : hpos (xs s);
  o_s : forall i, pres (sts s) i = occ i S + held c_chain s i;
  o_k : forall i, hget (ks s) i = occ i K + held c_key s i;
  o_kpos : hpos (ks s);
  o_t : forall i, pres (tmps s) i = occ i T }.
(** nothing is left but the certificates in [L] *)
Definition only_left (s : st) (L : list nat) : Prop :=
  cx s = None /\ sts s = ∅ /\ ks s = ∅ /\ tmps s = ∅ /\ forall i, hget (xs s) i = occ i L.
(** the context serves certificate [c] with the chain [cs] and the key [k] *)
Definition serves (s : st) (c : Z) (cs : list Z) (k : Z) : Prop :=
  exists r x ch l y, cx s = Some r /\ c_cert r = Some x /\ xc s x = c /\ c_chain r = Some ch /\ sts s !! ch = Some l /\ (xc s <$> l) = cs /\
    c_key r = Some y /\ kc s y = k.
(** security relevant settings *)
Definition set_up (s : st) (ver : vmode) (ca : option (option Z * option Z)) : Prop :=
  exists r, cx s = Some r /\ c_nov2 r = true /\ c_nov3 r = true /\ c_ver r = ver /\ c_ca r = ca.
(** client certificates are demanded exactly if authorities are given *)
Definition asked (ca_path ca_file : option Z) : bool := match ca_path, ca_file with None, None => false | _, _ => true end.
(** the session id context *)
Definition sid_of (s : st) : option (list chunk) := match cx s with Some c => c_sid c | None => None end.
(** some undecodable block of the text looks like its end to the reader, which compares the reason and (if [lib]) the library of the error *)
Definition looks_like_end (lib : bool) (t : list pem) : Prop := exists l e, (l, e) ∈ bad_in t /\ e = NO_START_LINE /\ (lib = true -> l = LIB_PEM).
(** what the context serves comes from the texts [t] and [t'] *)
Definition serves_texts (lib : bool) (s : st) (t t' : list pem) (match_ : Z -> Z -> bool) (ok_pw : option (list Z) -> Prop) : Prop :=
  exists c cs k pw r, serves s c cs k /\ (c :: cs) `prefix_of` certs_in t /\ (~ looks_like_end lib t -> bad_in t = [] /\ c :: cs = certs_in t) /\
    keys_in t' = (k, pw) :: r /\ ok_pw pw /\ match_ c k = true.
(** a good certificate text and a key text that fits it *)
Definition good_texts (t t' : list pem) (match_ : Z -> Z -> bool) (ok_pw : option (list Z) -> Prop) : Prop :=
  bad_in t = [] /\ exists c cs k pw r, certs_in t = c :: cs /\ keys_in t' = (k, pw) :: r /\ ok_pw pw /\ match_ c k = true.
(** a context made by kgl_ssl_ctx_new and given certificates any number of times: the result of the last call *)
Fixpoint reloads (fail : nat -> bool) (tty : list Z) (files : Z -> option (list pem * nat)) (ok : bool) (l : list (src * src * option (list (list Z)))) : M bool :=
  match l with
  | [] => ret ok
  | (cert, key, pws) :: l => let* ok := kgl_ssl_certificate fail tty files cert key pws in reloads fail tty files ok l
  end.
(** the key is given, and an empty array of passwords only for keys that need none *)
Definition key_ok (files : Z -> option (list pem * nat)) (r : src * src * option (list (list Z))) : Prop :=
  match r with (_, key, pws) => key <> SNull /\ (pws = Some [] -> forall t k pw, text files key = Some t -> (k, pw) ∈ keys_in t -> pw = None) end.
(** the text of the certificate: that of the key if no certificate is given *)
Definition cert_text (files : Z -> option (list pem * nat)) (cert key : src) : option (list pem) :=
  match cert with SNull | SEmpty => text files key | _ => text files cert end.
(** one of the passwords opens the key *)
Definition some_pw (tty : list Z) (pws : option (list (list Z))) (pw : option (list Z)) : Prop :=
  match pws with None => pw = None \/ pw = Some tty | Some l => pw = None \/ exists p, p ∈ l /\ opens pw p end.
