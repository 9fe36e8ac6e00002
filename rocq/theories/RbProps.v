(** Properties C01-C05: red-black tree.  Model: RbModel.v; specification: RbSpec.v (ordered association
    list, caller's operations, [legal_run]); [exec_all], [walk]: the caller's program, RbHist.v. *)
From Verif Require Import RbModel RbSpec RbHist RbNav RbIntCmp.

(** C01.  Every legal history of insert / find / remove calls on an empty tree runs without touching
    NULL or freed memory and without exhausting its loop bounds; its results are those of the ordered
    association list, and walking the final tree lists exactly that list, strictly sorted. *)
Theorem C01_rbtree_contents {K} (cmp : K -> K -> Z) (os : list (op K)) (fuel : nat) :
  total_order cmp -> legal_run cmp [] os -> length os + 3 <= fuel ->
  exists s, exec_all cmp fuel empty_tree os = Some ((spec_run cmp [] os).1, s)
    /\ walk fuel s = Some (spec_run cmp [] os).2
    /\ strictly_sorted cmp (spec_run cmp [] os).2.
Proof.
  intros TO HL Hf.
  destruct (exec_all_ok cmp TO os fuel empty_tree [] inv_empty ltac:(constructor) HL Hf) as (s & E & Hi & Hs & Hlen).
  cbn in Hlen. exists s. split_and!; [exact E| |exact Hs]. apply inv_walk; [exact Hi|lia].
Qed.
Print Assumptions C01_rbtree_contents.

(** C01, on the specification itself: entries are exactly those put and not dropped *)
Theorem C01_spec_put {K} (cmp : K -> K -> Z) k e l x : x ∈ put cmp k e l <-> x = e \/ x ∈ l.
Proof. induction l as [|[n d] l IH]; cbn; [set_solver|]. destruct (_ <? _)%Z; set_solver. Qed.
Theorem C01_spec_drop {K} n (l : list (positive * K)) x : x ∈ drop_node n l <-> x.1 <> n /\ x ∈ l.
Proof. unfold drop_node. rewrite elem_of_list_filter. done. Qed.
Theorem C01_spec_lookup {K} (cmp : K -> K -> Z) k l :
  match lookup_key cmp k l with
  | Some n => exists d, (n, d) ∈ l /\ cmp k d = 0%Z
  | None => forall e, e ∈ l -> cmp k e.2 <> 0%Z
  end.
Proof.
  destruct (lookup_key cmp k l) eqn:E; [by apply lookup_key_some|by apply lookup_key_none].
Qed.
Print Assumptions C01_spec_put.
Print Assumptions C01_spec_drop.
Print Assumptions C01_spec_lookup.

(** a concrete history: 9 insertions (one of a key already present), removal of an inner node, lookups *)
Definition demo : list (op Z) :=
  [Ins 5 5 1 0; Ins 3 3 2 0; Ins 8 8 3 0; Ins 1 1 4 0; Ins 4 4 5 0; Ins 7 7 6 0; Ins 9 9 7 0;
   Ins 5 5 8 0; Ins 2 2 9 0; Rem 1; Find 5; Find 7; Rem 4; Find 1]%Z.
#[local] Instance legal_dec (l : list (positive * Z)) o : Decision (legal Z.sub l o).
Proof. destruct o; cbn [legal]; apply _. Defined.
#[local] Instance legal_run_dec os : forall l, Decision (legal_run Z.sub l os).
Proof. induction os as [|o os IH]; intros l; cbn [legal_run]; apply _. Defined.
Example C01_demo_legal : total_order Z.sub /\ legal_run Z.sub [] demo.
Proof.
  split; [split; intros; lia|]. apply (bool_decide_unpack _). vm_compute. exact I.
Qed.
Example C01_demo_run : exists s, exec_all Z.sub 20 empty_tree demo =
  Some ([RIns 1 true; RIns 2 true; RIns 3 true; RIns 4 true; RIns 5 true; RIns 6 true; RIns 7 true;
         RIns 1 false; RIns 9 true; RRem; RFind None; RFind (Some 6%positive); RRem; RFind None], s)
  /\ walk 20 s = Some [(9%positive, 2); (2%positive, 3); (5%positive, 4); (6%positive, 7); (3%positive, 8); (7%positive, 9)]%Z.
Proof. eexists. split; vm_compute; reflexivity. Qed.

(** C02.  After every legal history: root black, no red node has a red child, all paths have the same
    number of black nodes, and a search among n entries visits at most 2*log2(n+1) nodes (the fuel of
    [rbtree_find] is the number of nodes it may visit). *)
Theorem C02_rbtree_balanced {K} (cmp : K -> K -> Z) (os : list (op K)) (fuel : nat) :
  total_order cmp -> legal_run cmp [] os -> length os + 3 <= fuel ->
  exists s rs, exec_all cmp fuel empty_tree os = Some (rs, s)
    /\ color s (root s) = Some true /\ no_red_red s /\ (exists n, black_height s (root s) n)
    /\ forall k, rbtree_find cmp (2 * Nat.log2 (length (spec_run cmp [] os).2 + 1)) s k
                 = Some (lookup_key cmp k (spec_run cmp [] os).2).
Proof.
  intros TO HL Hf.
  destruct (exec_all_ok cmp TO os fuel empty_tree [] inv_empty ltac:(constructor) HL Hf) as (s & E & Hi & Hs & Hlen).
  exists s. eexists. split; [exact E|]. destruct (inv_rb s _ Hi) as (H1 & H2 & H3). split_and!; try done.
  intros k. by apply inv_find_fast.
Qed.
Print Assumptions C02_rbtree_balanced.

(** C03.  On every tree reachable by a legal history: first/last, next/prev are the in-order neighbours. *)
Theorem C03_rbtree_navigation {K} (cmp : K -> K -> Z) (os : list (op K)) (fuel : nat) :
  total_order cmp -> legal_run cmp [] os -> length os + 3 <= fuel ->
  exists s rs, exec_all cmp fuel empty_tree os = Some (rs, s)
    /\ let l := (spec_run cmp [] os).2 in
       rb_first fuel s = Some (fst <$> head l) /\ rb_last fuel s = Some (fst <$> last l)
    /\ forall l1 n d l2, l = l1 ++ (n, d) :: l2 ->
         (exists nn, rd s n = Some nn /\ dat nn = d) /\
         rb_next fuel s n = Some (fst <$> head l2) /\ rb_prev fuel s n = Some (fst <$> last l1).
Proof.
  intros TO HL Hf.
  destruct (exec_all_ok cmp TO os fuel empty_tree [] inv_empty ltac:(constructor) HL Hf) as (s & E & Hi & Hs & Hlen).
  cbn in Hlen. exists s. eexists. split; [exact E|]. cbn. split; [apply inv_first; [done|lia]|].
  split; [apply inv_last; [done|lia]|]. intros l1 n d l2 El. rewrite El in Hi, Hlen.
  split_and!; [by eapply inv_dat|eapply inv_next; [exact Hi|lia]|eapply inv_prev; [exact Hi|lia]].
Qed.
Print Assumptions C03_rbtree_navigation.

(** C03, iteration: the callback sees every entry once, in order, until it breaks; afterwards exactly the
    entries it asked to remove are gone.  [iterate] is the specification (a plain list recursion). *)
Theorem C03_rbtree_iterator {K A} (cmp : K -> K -> Z) (os : list (op K)) (fuel : nat)
    (cb : K -> A -> iter_ret * A) (a : A) :
  total_order cmp -> legal_run cmp [] os -> length os + 3 <= fuel ->
  exists s rs s', exec_all cmp fuel empty_tree os = Some (rs, s)
    /\ let r := iterate iter_keep iter_go cb (spec_run cmp [] os).2 a in
       rbtree_iterator fuel cb s a = Some (s', r.2) /\ walk fuel s' = Some r.1.
Proof.
  intros TO HL Hf.
  destruct (exec_all_ok cmp TO os fuel empty_tree [] inv_empty ltac:(constructor) HL Hf) as (s & E & Hi & Hs & Hlen).
  cbn in Hlen. destruct (inv_iterator fuel cb s a _ Hi ltac:(lia)) as (s' & E' & Hi').
  exists s. eexists. exists s'. split; [exact E|]. cbn. split; [exact E'|]. apply inv_walk; [exact Hi'|].
  assert (HI : forall (l : list (positive * K)) a, length (iterate iter_keep iter_go cb l a).1 <= length l).
  { clear. induction l as [|[n d] l IH]; intros a; cbn; [lia|]. destruct (cb d a) as [[] a']; cbn; try lia.
    - specialize (IH a'). destruct (iterate _ _ cb l a'); cbn in *; lia.
    - specialize (IH a'). destruct (iterate _ _ cb l a'); cbn in *; lia. }
  specialize (HI (spec_run cmp [] os).2 a). lia.
Qed.
Print Assumptions C03_rbtree_iterator.

(** a callback that removes the odd keys, counts what it sees and stops at 8 *)
Example C03_demo_iter : exists s rs s', exec_all Z.sub 20 empty_tree demo = Some (rs, s) /\
  rbtree_iterator 20 (fun k (c : nat) =>
     (if (k =? 8)%Z then IterRemoveBreak else if Z.odd k then IterRemoveContinue else IterContinue, S c)) s 0 = Some (s', 5)
  /\ walk 20 s' = Some [(9%positive, 2); (5%positive, 4); (7%positive, 9)]%Z.
Proof. do 3 eexists. split; [vm_compute; reflexivity|split; vm_compute; reflexivity]. Qed.

(** C04.  Cover lookup: [cover k l] = last entry <= k, or, when every entry is greater, the last entry of
    all; None only for the empty tree. *)
Theorem C04_rbtree_find_cover {K} (cmp : K -> K -> Z) (os : list (op K)) (fuel : nat) (k : K) :
  total_order cmp -> legal_run cmp [] os -> length os + 3 <= fuel ->
  exists s rs, exec_all cmp fuel empty_tree os = Some (rs, s)
    /\ rbtree_find_cover cmp fuel s k = Some (cover cmp k (spec_run cmp [] os).2).
Proof.
  intros TO HL Hf.
  destruct (exec_all_ok cmp TO os fuel empty_tree [] inv_empty ltac:(constructor) HL Hf) as (s & E & Hi & Hs & Hlen).
  cbn in Hlen. exists s. eexists. split; [exact E|]. apply inv_cover; [done|done|done|lia].
Qed.
Print Assumptions C04_rbtree_find_cover.
Example C04_demo : exists s rs, exec_all Z.sub 20 empty_tree demo = Some (rs, s) /\
  rbtree_find_cover Z.sub 20 s 6%Z = Some (Some 5%positive) /\ rbtree_find_cover Z.sub 20 s 0%Z = Some (Some 7%positive).
Proof. do 2 eexists. split; [vm_compute; reflexivity|split; vm_compute; reflexivity]. Qed.

(** C05.  As stated ("for every pair of ints") the claim is false of the code: the subtraction wraps. *)
Theorem C05_int_cmp_refuted :
  exists k1 k2, int32 k1 /\ int32 k2 /\ (k1 < k2)%Z /\ (rbtree_int_cmp k1 k2 > 0)%Z.
Proof. exact int_cmp_refuted. Qed.
Print Assumptions C05_int_cmp_refuted.
Theorem C05_int_cmp_not_transitive_refuted : exists a b c, int32 a /\ int32 b /\ int32 c /\
  (rbtree_int_cmp a b < 0)%Z /\ (rbtree_int_cmp b c < 0)%Z /\ (rbtree_int_cmp c a < 0)%Z.
Proof. exact int_cmp_cycle. Qed.
Print Assumptions C05_int_cmp_not_transitive_refuted.
(** It holds whenever the difference is representable; equality is always decided correctly. *)
Theorem C05_int_cmp_partial k1 k2 : int32 (k1 - k2) ->
  ((rbtree_int_cmp k1 k2 < 0 <-> k1 < k2) /\ (rbtree_int_cmp k1 k2 = 0 <-> k1 = k2) /\ (rbtree_int_cmp k1 k2 > 0 <-> k1 > k2))%Z.
Proof. exact (int_cmp_partial k1 k2). Qed.
Print Assumptions C05_int_cmp_partial.
Theorem C05_int_cmp_equality k1 k2 : int32 k1 -> int32 k2 -> (rbtree_int_cmp k1 k2 = 0%Z <-> k1 = k2).
Proof. exact (int_cmp_zero k1 k2). Qed.
Print Assumptions C05_int_cmp_equality.
Example C05_demo : int32 (1000000000 - (-1000000000)).
Proof. unfold int32. lia. Qed.
