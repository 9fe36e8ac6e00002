(** Socket addresses: comparison and hash, /repo/include/ksocket.h.  Configuration KSOCKET_IPV6, little-endian machine. *)
From stdpp Require Import prelude.
From Coq Require Import ZArith Lia.
From Verif Require Import SelMgrModel.
Local Open Scope Z_scope.

Definition PF_INET : Z := 2.
Definition PF_INET6 : Z := 10.
(** ip_addr, ksocket.h:71-77: the 16 bytes of the union and the family *)
Record ipaddr := IP { bytes : list Z; fam : Z }.
Definition byte_ok (b : Z) : Prop := 0 <= b < 256.
Definition ip_ok (a : ipaddr) : Prop := length (bytes a) = 16%nat /\ Forall byte_ok (bytes a) /\ 0 <= fam a < 65536.
(** addr32[i] *)
Definition le32 (l : list Z) : Z := match l with b0 :: b1 :: b2 :: b3 :: _ => b0 + 256 * b1 + 65536 * b2 + 16777216 * b3 | _ => 0 end.
Definition word (a : ipaddr) (i : nat) : Z := le32 (drop (4 * i) (bytes a)).

(** memcmp of two byte strings of the same length; only the sign is specified by C, here: difference of the first
    different pair, as in glibc *)
Fixpoint memcmp (a b : list Z) : Z :=
  match a, b with
  | x :: a, y :: b => if decide (x = y) then memcmp a b else x - y
  | _, _ => 0
  end.
(** ksocket_ipaddr_compare, ksocket.h:186-200 *)
Definition ipaddr_compare (a b : ipaddr) : Z :=
  let ret := i32 (fam a - fam b) in
  if decide (ret <> 0) then ret
  else if decide (fam a = PF_INET) then i32 (i32 (word a 0) - i32 (word b 0))
  else memcmp (bytes a) (bytes b).
(** operator< and operator== of ip_addr for C++ users, ksocket.h:84-95, 107-115 *)
Definition ip_less (a b : ipaddr) : bool :=
  if decide (fam a < fam b) then true else if decide (fam a > fam b) then false
  else if decide (fam a = PF_INET) then bool_decide (word a 0 < word b 0)
  else bool_decide (memcmp (bytes a) (bytes b) < 0).
Definition ip_eq (a b : ipaddr) : bool :=
  if decide (fam a <> fam b) then false
  else if decide (fam a = PF_INET) then bool_decide (word a 0 = word b 0)
  else bool_decide (memcmp (bytes a) (bytes b) = 0).
(** get_hash, ksocket.h:116-123 *)
Definition ip_hash (a : ipaddr) : Z := Z.lxor (Z.lxor (Z.lxor (word a 0) (word a 1)) (word a 2)) (word a 3).

(** sockaddr_i, ksocket.h:137-145: family, port, sin_addr.s_addr (valid if IPv4) and the 16 bytes of sin6_addr *)
Record saddr := SA { sfam : Z; sport : Z; s4 : Z; s6 : list Z }.
Definition sa_ok (a : saddr) : Prop := 0 <= sfam a < 65536 /\ 0 <= s4 a < 2 ^ 32 /\ length (s6 a) = 16%nat /\ Forall byte_ok (s6 a).
(** ksocket_addr_compare, ksocket.h:146-160 *)
Definition addr_compare (a b : saddr) : Z :=
  let ret := i32 (sfam a - sfam b) in
  if decide (ret <> 0) then ret
  else if decide (sfam a = PF_INET) then i32 (i32 (s4 a) - i32 (s4 b))
  else memcmp (s6 a) (s6 b).
(** ksocket_addr_hash, ksocket.h:173-185 *)
Definition addr_hash (a : saddr) : Z :=
  if decide (sfam a = PF_INET) then s4 a
  else Z.lxor (Z.lxor (Z.lxor (le32 (s6 a)) (le32 (drop 4 (s6 a)))) (le32 (drop 8 (s6 a)))) (le32 (drop 12 (s6 a))).
