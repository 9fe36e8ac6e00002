(** src/krbtree.c:32-37 rbtree_int_cmp, and the packed parent/colour word. *)
From Verif Require Import RbModel RbSpec.
From Coq Require Import Lia.
Local Open Scope Z_scope.

(** two's complement 32-bit value of a mathematical integer *)
Definition wrap32 (x : Z) : Z := (x + 2^31) mod 2^32 - 2^31.
Definition int32 (x : Z) : Prop := - 2^31 <= x < 2^31.

(** src/krbtree.c:32-37: "return *k1 - *k2;".  On overflow the C standard leaves the result undefined; this
    is the value two's complement machines produce. *)
Definition rbtree_int_cmp (k1 k2 : Z) : Z := wrap32 (k1 - k2).

Lemma wrap32_id x : int32 x -> wrap32 x = x.
Proof. unfold wrap32, int32. intros H. rewrite Z.mod_small; lia. Qed.

Lemma int_cmp_partial k1 k2 : int32 (k1 - k2) ->
  (rbtree_int_cmp k1 k2 < 0 <-> k1 < k2) /\ (rbtree_int_cmp k1 k2 = 0 <-> k1 = k2) /\ (rbtree_int_cmp k1 k2 > 0 <-> k1 > k2).
Proof. intros H. unfold rbtree_int_cmp. rewrite wrap32_id by done. lia. Qed.
Lemma int_cmp_zero k1 k2 : int32 k1 -> int32 k2 -> (rbtree_int_cmp k1 k2 = 0 <-> k1 = k2).
Proof.
  unfold rbtree_int_cmp, wrap32, int32. intros H1 H2. split; [|intros ->; rewrite Z.sub_diag; done].
  intros H. pose proof (Z.div_mod (k1 - k2 + 2^31) (2^32) ltac:(lia)) as E. lia.
Qed.
Lemma int_cmp_refuted : exists k1 k2, int32 k1 /\ int32 k2 /\ k1 < k2 /\ rbtree_int_cmp k1 k2 > 0.
Proof. exists (-2000000000), 2000000000. unfold int32. vm_compute. intuition discriminate. Qed.
(** not transitive either: it is no order at all on the full range *)
Lemma int_cmp_cycle : exists a b c, int32 a /\ int32 b /\ int32 c /\
  rbtree_int_cmp a b < 0 /\ rbtree_int_cmp b c < 0 /\ rbtree_int_cmp c a < 0.
Proof. exists (-1500000000), 0, 1500000000. unfold int32. vm_compute. intuition discriminate. Qed.
