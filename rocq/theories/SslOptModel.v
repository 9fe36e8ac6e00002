(** * TLS protocol selection string: kgl_ssl_ctx_set_protocols (src/kgl_ssl.c:852-926)

    C strings are lists of non-zero bytes.  Loops are fuelled; running out of fuel is a separate
    result ([None]) that the theorems exclude.  strdup is assumed to succeed.  All OpenSSL
    feature macros used by the function (SSL_OP_NO_TLSv1_1 ... TLS1_3_VERSION,
    SSL_CTX_set_min_proto_version) are taken as defined (OpenSSL 1.1.1 or later). *)
From stdpp Require Import prelude gmap.
From Coq Require Import ZArith.
Local Open Scope Z_scope.

(** src/kgl_ssl.c:27-32: the protocols the table knows. *)
Inductive proto := SSLv2 | SSLv3 | TLSv1 | TLSv1_1 | TLSv1_2 | TLSv1_3.
Global Instance proto_eq_dec : EqDecision proto.
Proof. solve_decision. Defined.

(** isspace in the C locale: blank, \t \n \v \f \r. *)
Definition isspace (c : Z) : bool := bool_decide (c = 32) || (bool_decide (9 <= c) && bool_decide (c <= 13)).

(** tolower in the C locale (used by strcasecmp). *)
Definition tolower (c : Z) : Z := if decide (65 <= c <= 90) then c + 32 else c.

(** strcasecmp: difference at the first position where the lowered bytes differ, the terminating
    NUL (end of list) counting as 0. *)
Fixpoint strcasecmp (a b : list Z) : Z :=
  match a, b with
  | [], [] => 0
  | [], c :: _ => 0 - tolower c
  | c :: _, [] => tolower c
  | x :: a', y :: b' => if decide (tolower x = tolower y) then strcasecmp a' b' else tolower x - tolower y
  end.

(** src/kgl_ssl.c:33-41: the table kgl_ssl_protocols, mask bits of lines 27-32. *)
Definition table : list (list Z * Z) :=
  [ ([83;83;76;118;50], 2);                     (* "SSLv2" *)
    ([83;83;76;118;51], 4);                     (* "SSLv3" *)
    ([84;76;83;118;49], 8);                     (* "TLSv1" *)
    ([84;76;83;118;49;46;49], 16);              (* "TLSv1.1" *)
    ([84;76;83;118;49;46;50], 32);              (* "TLSv1.2" *)
    ([84;76;83;118;49;46;51], 64) ].            (* "TLSv1.3" *)

(** src/kgl_ssl.c:868-870: while ( *hot && isspace) hot++ *)
Fixpoint skip_space (s : list Z) : list Z :=
  match s with
  | [] => []
  | c :: s' => if isspace c then skip_space s' else s
  end.

(** src/kgl_ssl.c:871-874: p = hot; while ( *p && !isspace) p++; gives the word [hot, p) and the
    text from p on. *)
Fixpoint word (s : list Z) : list Z * list Z :=
  match s with
  | [] => ([], [])
  | c :: s' => if isspace c then ([], s) else let '(w, r) := word s' in (c :: w, r)
  end.

(** src/kgl_ssl.c:882-888: look the word up, KBIT_SET for every matching entry. *)
Fixpoint lookup_word (t : list (list Z * Z)) (w : list Z) (mask : Z) : Z :=
  match t with
  | [] => mask
  | (name, m) :: t' => lookup_word t' w (if decide (strcasecmp name w = 0) then Z.lor mask m else mask)
  end.

(** src/kgl_ssl.c:867-893: the for(;;) loop. *)
Fixpoint scan (fuel : nat) (hot : list Z) (mask : Z) : option Z :=
  match fuel with
  | O => None
  | S fuel =>
      let hot := skip_space hot in
      let '(w, p) := word hot in
      if decide (w = []) then Some mask                         (* 875: p == hot *)
      else
        let p := match p with [] => [] | _ :: r => r end in     (* 878-881: cut the word off *)
        let mask := lookup_word table w mask in
        if decide (p = []) then Some mask else scan fuel p mask  (* 889-892 *)
  end.

(** Context options: one "protocol not offered" flag per protocol, and everything else. *)
Record ctx := mkctx { c_no : proto -> bool; c_other : Z; c_min : Z; c_max : Z }.

Definition TLS1_3_VERSION : Z := 772.

(** src/kgl_ssl.c:895-925: clear the six flags, set those missing from the mask. *)
Definition bit_of (p : proto) : Z :=
  match p with SSLv2 => 2 | SSLv3 => 4 | TLSv1 => 8 | TLSv1_1 => 16 | TLSv1_2 => 32 | TLSv1_3 => 64 end.

Definition set_protocols (c : ctx) (protocols : option (list Z)) : option ctx :=
  let c := mkctx (c_no c) (c_other c) 0 TLS1_3_VERSION in       (* 853-860 *)
  match protocols with
  | None | Some [] => Some c                                     (* 861-863 *)
  | Some s =>
      match scan (S (length s)) s 0 with
      | None => None
      | Some mask =>
          Some (mkctx (fun p => bool_decide (Z.land mask (bit_of p) = 0)) (c_other c) (c_min c) (c_max c))
      end
  end.
