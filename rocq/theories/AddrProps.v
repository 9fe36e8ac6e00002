(** C44: is the comparison of addresses a total order? *)
From stdpp Require Import prelude.
From Coq Require Import ZArith Lia.
From Verif Require Import SelMgrModel AddrModel.
Local Open Scope Z_scope.

(** ** Specification: what it means that two addresses are the same, and that a C comparison is a total preorder *)
Definition same_ip (a b : ipaddr) : Prop :=
  fam a = fam b /\ (if decide (fam a = PF_INET) then take 4 (bytes a) = take 4 (bytes b) else bytes a = bytes b).
Definition same_sa (a b : saddr) : Prop := sfam a = sfam b /\ (if decide (sfam a = PF_INET) then s4 a = s4 b else s6 a = s6 b).
Definition total_preorder {A} (P : A -> Prop) (cmp : A -> A -> Z) : Prop :=
  (forall a b, P a -> P b -> Z.sgn (cmp a b) = - Z.sgn (cmp b a)) /\
  (forall a b c, P a -> P b -> P c -> cmp a b <= 0 -> cmp b c <= 0 -> cmp a c <= 0).

(** ** memcmp is a lexicographic order *)
Lemma memcmp_refl a : memcmp a a = 0. Proof. induction a as [|x a IH]; cbn; [done|]. by rewrite decide_True. Qed.
Lemma memcmp_eq a : forall b, length a = length b -> memcmp a b = 0 -> a = b.
Proof. induction a as [|x a IH]; intros [|y b]; cbn; try done. intros [= Hl]. case_decide; [|lia]. intros H0. subst. f_equal. by apply IH. Qed.
Lemma memcmp_anti a : forall b, memcmp a b = - memcmp b a.
Proof. induction a as [|x a IH]; intros [|y b]; cbn; try done. case_decide; [subst; rewrite decide_True by done; apply IH|]. rewrite decide_False by congruence. lia. Qed.
Lemma memcmp_trans a : forall b c, length a = length b -> length b = length c -> memcmp a b <= 0 -> memcmp b c <= 0 -> memcmp a c <= 0.
Proof.
  induction a as [|x a IH]; intros [|y b] [|z c]; cbn; try done. intros [= L1] [= L2].
  repeat case_decide; subst; try lia; intros; eapply (IH b); done || lia.
Qed.
Lemma le32_bound l : Forall byte_ok l -> 0 <= le32 l < 2 ^ 32.
Proof. intros H. unfold le32. destruct l as [|b0 [|b1 [|b2 [|b3 l]]]]; try lia. repeat (apply Forall_cons in H as [? H]). unfold byte_ok in *. lia. Qed.
Lemma le32_inj l1 l2 : Forall byte_ok l1 -> Forall byte_ok l2 -> (4 <= length l1)%nat -> (4 <= length l2)%nat -> le32 l1 = le32 l2 -> take 4 l1 = take 4 l2.
Proof.
  intros H1 H2. destruct l1 as [|a0 [|a1 [|a2 [|a3 l1]]]]; cbn [length]; try lia. destruct l2 as [|b0 [|b1 [|b2 [|b3 l2]]]]; cbn [length]; try lia. intros _ _. cbn [le32].
  repeat (apply Forall_cons in H1 as [? H1]). repeat (apply Forall_cons in H2 as [? H2]). unfold byte_ok in *. intros HE.
  assert (a0 = b0) by lia. assert (a1 = b1) by lia. assert (a2 = b2) by lia. assert (a3 = b3) by lia. subst. reflexivity.
Qed.
Lemma le32_take l1 l2 : take 4 l1 = take 4 l2 -> le32 l1 = le32 l2.
Proof. destruct l1 as [|a0 [|a1 [|a2 [|a3 l1]]]]; destruct l2 as [|b0 [|b1 [|b2 [|b3 l2]]]]; cbn; try done. by intros [= -> -> -> ->]. Qed.
Lemma i32_id z : - 2 ^ 31 <= z < 2 ^ 31 -> i32 z = z. Proof. intros. unfold i32. rewrite Z.mod_small; lia. Qed.
Lemma i32_bound z : - 2 ^ 31 <= i32 z < 2 ^ 31. Proof. unfold i32. pose proof (Z.mod_pos_bound (z + 2 ^ 31) (2 ^ 32)). lia. Qed.
Lemma i32_eq a b : 0 <= a < 2 ^ 32 -> 0 <= b < 2 ^ 32 -> i32 a = i32 b -> a = b.
Proof. intros Ha Hb. unfold i32. intros H. assert (H' : (a + 2 ^ 31) mod 2 ^ 32 = (b + 2 ^ 31) mod 2 ^ 32) by lia. pose proof (Z.div_mod (a + 2 ^ 31) (2 ^ 32)). pose proof (Z.div_mod (b + 2 ^ 31) (2 ^ 32)). nia. Qed.
Lemma i32_sub0 a b : 0 <= a < 2 ^ 32 -> 0 <= b < 2 ^ 32 -> i32 (i32 a - i32 b) = 0 -> a = b.
Proof. intros Ha Hb H. apply i32_eq; [done..|]. pose proof (i32_bound a). pose proof (i32_bound b). revert H. unfold i32 at 1. intros H. pose proof (Z.div_mod (i32 a - i32 b + 2 ^ 31) (2 ^ 32)). nia. Qed.
Lemma i32_fam a b : 0 <= a < 65536 -> 0 <= b < 65536 -> i32 (a - b) = a - b. Proof. intros. apply i32_id. lia. Qed.

(** ** the result 0 means: the same address - for all addresses *)
Theorem C44_ipaddr_zero : forall a b, ip_ok a -> ip_ok b -> (ipaddr_compare a b = 0 <-> same_ip a b).
Proof.
  intros a b (A1 & A2 & A3) (B1 & B2 & B3). unfold ipaddr_compare, same_ip. rewrite i32_fam by done. case_decide as Hf; [split; [lia|intros [? _]; lia]|].
  assert (fam a = fam b) by lia. unfold word. cbn [Nat.mul Nat.add]. rewrite !drop_0. split.
  - intros H0. split; [done|]. case_decide.
    + apply le32_inj; try done; try lia. apply i32_sub0; [by apply le32_bound..|done].
    + apply memcmp_eq; [congruence|done].
  - intros [_ H0]. case_decide; [apply le32_take in H0; rewrite H0, Z.sub_diag; done|]. rewrite H0. apply memcmp_refl.
Qed.
Theorem C44_addr_zero : forall a b, sa_ok a -> sa_ok b -> (addr_compare a b = 0 <-> same_sa a b).
Proof.
  intros a b (A1 & A2 & A3 & A4) (B1 & B2 & B3 & B4). unfold addr_compare, same_sa. rewrite i32_fam by done. case_decide as Hf; [split; [lia|intros [? _]; lia]|].
  assert (sfam a = sfam b) by lia. split.
  - intros H0. split; [done|]. case_decide; [by apply i32_sub0|]. apply memcmp_eq; [congruence|done].
  - intros [_ H0]. case_decide; [rewrite H0, Z.sub_diag; done|]. rewrite H0. apply memcmp_refl.
Qed.
(** equal addresses have equal hash values (the port plays no role in either) *)
Theorem C44_addr_hash : forall a b, sa_ok a -> sa_ok b -> addr_compare a b = 0 -> addr_hash a = addr_hash b.
Proof.
  intros a b Ha Hb H. apply C44_addr_zero in H as [H1 H2]; [|done..]. unfold addr_hash. rewrite <- H1. case_decide; by rewrite H2.
Qed.

(** ** the order, among addresses whose IPv4 words, read as signed integers, are less than 2^31 apart *)
Section order.
Context {A : Type} (f : A -> Z) (w : A -> Z) (l : A -> list Z).
Definition gcmp (a b : A) : Z :=
  if decide (i32 (f a - f b) <> 0) then i32 (f a - f b) else if decide (f a = PF_INET) then i32 (i32 (w a) - i32 (w b)) else memcmp (l a) (l b).
Lemma gcmp_order (P : A -> Prop) : (forall a, P a -> 0 <= f a < 65536 /\ length (l a) = 16%nat) ->
  (forall a b, P a -> P b -> f a = PF_INET -> f b = PF_INET -> i32 (w a) - i32 (w b) < 2 ^ 31) -> total_preorder P gcmp.
Proof.
  intros H1 H2. assert (D : forall a b, P a -> P b -> f a = PF_INET -> f b = PF_INET -> i32 (i32 (w a) - i32 (w b)) = i32 (w a) - i32 (w b)).
  { intros a b Ha Hb Fa Fb. apply i32_id. pose proof (H2 a b Ha Hb Fa Fb). pose proof (H2 b a Hb Ha Fb Fa). lia. }
  split.
  - intros a b Ha Hb. unfold gcmp. destruct (H1 a Ha), (H1 b Hb). rewrite (i32_fam (f a) (f b)), (i32_fam (f b) (f a)) by done. destruct (decide (f a = f b)) as [E|E].
    + rewrite (decide_False (P := f a - f b <> 0)), (decide_False (P := f b - f a <> 0)) by lia. rewrite <- E. case_decide; [rewrite !D by congruence; lia|]. rewrite (memcmp_anti (l a)). lia.
    + rewrite (decide_True (P := f a - f b <> 0)), (decide_True (P := f b - f a <> 0)) by lia. lia.
  - intros a b c Ha Hb Hc. unfold gcmp. destruct (H1 a Ha), (H1 b Hb), (H1 c Hc). rewrite (i32_fam (f a) (f b)), (i32_fam (f b) (f c)), (i32_fam (f a) (f c)) by done.
    destruct (decide (f a = f b)) as [E|E]; destruct (decide (f b = f c)) as [E2|E2].
    + rewrite (decide_False (P := f a - f b <> 0)), (decide_False (P := f b - f c <> 0)), (decide_False (P := f a - f c <> 0)) by lia. rewrite <- E. case_decide; [rewrite !D by congruence; lia|]. apply memcmp_trans; congruence.
    + rewrite (decide_False (P := f a - f b <> 0)), (decide_True (P := f b - f c <> 0)), (decide_True (P := f a - f c <> 0)) by lia. lia.
    + rewrite (decide_True (P := f a - f b <> 0)), (decide_True (P := f a - f c <> 0)) by lia. lia.
    + rewrite (decide_True (P := f a - f b <> 0)), (decide_True (P := f b - f c <> 0)) by lia. intros. case_decide; lia.
Qed.
End order.
Definition v4_close (a b : Z) : Prop := i32 a - i32 b < 2 ^ 31 /\ i32 b - i32 a < 2 ^ 31.
Theorem C44_ipaddr_order_partial : forall P : ipaddr -> Prop, (forall a, P a -> ip_ok a) ->
  (forall a b, P a -> P b -> fam a = PF_INET -> fam b = PF_INET -> v4_close (word a 0) (word b 0)) -> total_preorder P ipaddr_compare.
Proof. intros P H1 H2. apply (gcmp_order fam (λ a, word a 0) bytes); [intros a Ha; destruct (H1 a Ha) as (? & ? & ?); done|]. intros a b Ha Hb Fa Fb. by apply (H2 a b). Qed.
Theorem C44_addr_order_partial : forall P : saddr -> Prop, (forall a, P a -> sa_ok a) ->
  (forall a b, P a -> P b -> sfam a = PF_INET -> sfam b = PF_INET -> v4_close (s4 a) (s4 b)) -> total_preorder P addr_compare.
Proof. intros P H1 H2. apply (gcmp_order sfam s4 s6); [intros a Ha; destruct (H1 a Ha) as (? & ? & ? & ?); done|]. intros a b Ha Hb Fa Fb. by apply (H2 a b). Qed.
(** in particular: all IPv6 addresses together with all IPv4 addresses whose last byte is below 128 *)
Corollary C44_addr_order_low_partial : total_preorder (λ a, sa_ok a /\ (sfam a = PF_INET -> s4 a < 2 ^ 31)) addr_compare.
Proof.
  apply C44_addr_order_partial; [by intros a [? _]|]. intros a b [(? & ? & ?) Ha] [(? & ? & ?) Hb] Fa Fb. specialize (Ha Fa). specialize (Hb Fb).
  unfold v4_close. rewrite !i32_id by lia. lia.
Qed.
(** a 16 byte address *)
Definition v4 (a b c d : Z) : ipaddr := IP ([a; b; c; d] ++ replicate 12 0) PF_INET.
Lemma ip_ok_intro l f : length l = 12%nat -> forall a b c d, 0 <= f < 65536 -> Forall byte_ok [a; b; c; d] -> Forall byte_ok l -> ip_ok (IP ([a; b; c; d] ++ l) f).
Proof. intros Hl a b c d Hf H1 H2. split_and!; cbn [bytes fam]; try lia; [rewrite app_length, Hl; done|]. by apply Forall_app. Qed.
Lemma v4_ok a b c d : byte_ok a -> byte_ok b -> byte_ok c -> byte_ok d -> ip_ok (v4 a b c d).
Proof. intros. apply ip_ok_intro; [done|done| |apply Forall_replicate; done]. repeat (apply Forall_cons; split; [done|]). by apply Forall_nil. Qed.
Example demo_order : ipaddr_compare (v4 10 0 0 1) (v4 10 0 0 2) < 0 /\ ipaddr_compare (v4 10 0 0 2) (IP (replicate 16 1) PF_INET6) < 0 /\ ip_ok (v4 10 0 0 1).
Proof. split_and!; [reflexivity..|]. by apply v4_ok. Qed.

(** ** the full claim fails for IPv4 *)
(** three ordinary addresses form a cycle *)
Theorem C44_cycle_refuted : exists a b c, ip_ok a /\ ip_ok b /\ ip_ok c /\ ipaddr_compare a b < 0 /\ ipaddr_compare b c < 0 /\ ipaddr_compare c a < 0.
Proof.
  exists (v4 10 0 0 160), (v4 10 0 0 1), (v4 10 0 0 96).
  split_and!; try (by apply v4_ok); reflexivity.
Qed.
(** and the order of two addresses may depend on the order of the arguments: 10.0.0.1 vs 10.0.0.129 *)
Theorem C44_antisym_refuted : exists a b, ip_ok a /\ ip_ok b /\ ipaddr_compare a b < 0 /\ ipaddr_compare b a < 0.
Proof.
  exists (v4 10 0 0 1), (v4 10 0 0 129).
  split_and!; try (by apply v4_ok); reflexivity.
Qed.

(** ** the C++ operators of the same type are a strict total order *)
Lemma ip_less_irrefl a : ip_less a a = false.
Proof. unfold ip_less. rewrite !decide_False by lia. rewrite memcmp_refl. case_decide; apply bool_decide_eq_false; lia. Qed.
Theorem C44_cpp_order : forall a b c, ip_ok a -> ip_ok b -> ip_ok c ->
  ip_less a a = false /\ (ip_less a b -> ip_less b c -> ip_less a c) /\ (ip_less a b \/ ip_less b a \/ ip_eq a b) /\ (ip_eq a b <-> same_ip a b).
Proof.
  intros a b c (A1 & A2 & A3) (B1 & B2 & B3) (C1 & C2 & C3). split_and!.
  - apply ip_less_irrefl.
  - unfold ip_less. repeat case_decide; try done; try lia; try (rewrite !bool_decide_spec; lia).
    rewrite !bool_decide_spec. intros G1 G2. assert (memcmp (bytes a) (bytes c) <= 0) by (apply (memcmp_trans _ (bytes b)); lia || congruence).
    destruct (decide (memcmp (bytes a) (bytes c) = 0)) as [E|]; [|lia]. apply memcmp_eq in E; [|congruence]. rewrite <- E, memcmp_anti in G2. lia.
  - unfold ip_less, ip_eq. repeat case_decide; try lia; try (by left); try (by right; left).
    all: rewrite !bool_decide_spec; try rewrite (memcmp_anti (bytes b) (bytes a)); lia.
  - unfold ip_eq, same_ip. case_decide; [split; [done|intros [? _]; congruence]|]. unfold word. cbn [Nat.mul Nat.add]. rewrite !drop_0. case_decide; rewrite bool_decide_spec.
    + split; [intros E; split; [lia|]; apply le32_inj; try done; lia|intros [_ E]; by apply le32_take].
    + split; [intros E; split; [lia|]; apply memcmp_eq; [congruence|done]|intros [_ ->]; apply memcmp_refl].
Qed.
(** but get_hash also hashes the 12 bytes that == ignores for IPv4 (operator& leaves them uninitialised) *)
Theorem C44_cpp_hash_refuted : exists a b, ip_ok a /\ ip_ok b /\ ip_eq a b = true /\ ip_hash a <> ip_hash b.
Proof.
  exists (v4 10 0 0 1), (IP ([10; 0; 0; 1] ++ replicate 12 1) PF_INET). split_and!; [by apply v4_ok| |reflexivity|vm_compute; done].
  apply ip_ok_intro; [done|done| |apply Forall_replicate; done]. repeat (apply Forall_cons; split; [done|]). by apply Forall_nil.
Qed.
