(** C87: summaries kept in the nodes of a red-black tree (augmented trees).

    Property.  A caller keeps in each node a summary of its subtree, computed by a
    function [F] from the data of the node and the summaries of its children.  If
    rb_augment_insert is called after each insertion, rb_augment_erase_begin before and
    rb_augment_erase_end after each removal, all summaries are right after each call; for an associative operation the summary of the root is
    the combination of all data, in order. *)
From Verif Require Import RbModel RbZip RbRot RbInsert RbErase RbRemove RbSpec RbHist RbNav RbAugModel RbAugIns RbAugPath RbAugErase RbAugRemove RbAugDel.

Section rb_aug_props.
Context {K V : Type} (cmp : K -> K -> Z) (F : K -> option V -> option V -> V).
Context (TO : total_order cmp).
Implicit Types (s : rbs K) (g : positive -> V) (l : list (positive * K)).

(** ** Specification *)
(** in every node: the summary is that of its data and its children's summaries *)
Definition summaries_right s g : Prop :=
  forall p n, rd s p = Some n ->
    g p = F (dat n) (option_map g (lft n)) (option_map g (rgt n)).

(** ** What the caller does *)
(** rbtree_insert(k) at address [a] (its data word holds [k] from the start), then, if the
    node is new, rb_augment_insert(node) *)
Definition insert_sum (fuel : nat) s g (k : K) (a : positive) : option (rbs K * (positive -> V)) :=
  r ← rbtree_insert cmp fuel s k a k;
  let '(s, n, new) := r in
  if (new : bool) then g ← augment_insert F fuel s g n; Some (s, g) else Some (s, g).
(** rb_augment_erase_begin(node), rbtree_remove(node), rb_augment_erase_end *)
Definition remove_sum (fuel : nat) s g (n : positive) : option (rbs K * (positive -> V)) :=
  d ← augment_erase_begin fuel s n;
  s ← rbtree_remove fuel s n;
  g ← augment_erase_end F fuel s g d;
  Some (s, g).
Inductive call := CIns (k : K) (a : positive) | CRem (n : positive).
Definition do_call (fuel : nat) s g (c : call) : option (rbs K * (positive -> V)) :=
  match c with CIns k a => insert_sum fuel s g k a | CRem n => remove_sum fuel s g n end.
Fixpoint do_calls (fuel : nat) s g (cs : list call) : option (rbs K * (positive -> V)) :=
  match cs with
  | [] => Some (s, g)
  | c :: cs => r ← do_call fuel s g c; let '(s, g) := r in do_calls fuel s g cs
  end.
(** the calls as operations of the specification in RbSpec *)
Definition call_op (c : call) : op K := match c with CIns k a => Ins k k a k | CRem n => Rem n end.

(** ** Proofs *)
Definition invA s g l : Prop :=
  exists t, rep s t /\ inorder t = l /\ (exists N, rbt true N t) /\ (forall q, q ∉ ids t -> heap s !! q = None)
    /\ allc F g t.
Lemma invA_inv s g l : invA s g l -> inv s l.
Proof. intros (t & ?). exists t. naive_solver. Qed.

Lemma rept_right s g pa t : rept (heap s) pa t -> allc F g t -> forall p n, p ∈ ids t -> rd s p = Some n ->
  g p = F (dat n) (option_map g (lft n)) (option_map g (rgt n)).
Proof.
  revert pa. induction t as [|c q k l IHl r IHr]; intros pa H A p n Hp E; cbn in Hp; [set_solver|].
  cbn in H, A. destruct H as (H1 & H2 & H3), A as (A1 & A2 & A3).
  apply elem_of_cons in Hp as [->|[Hp|Hp]%elem_of_app]; [|by eapply IHl|by eapply IHr].
  unfold rd in E. rewrite H1 in E. injection E as <-. cbn. rewrite A1. by destruct l, r.
Qed.
Lemma invA_right s g l : invA s g l -> summaries_right s g.
Proof.
  intros (t & (_ & Hr & _) & _ & _ & Ho & HA) p n E.
  destruct (decide (p ∈ ids t)) as [Hp|Hp]; [by eapply rept_right|]. unfold rd in E. by rewrite Ho in E.
Qed.

Lemma invA_insert fuel s g l k a :
  invA s g l -> strictly_sorted cmp l -> (lookup_key cmp k l = None -> a ∉ l.*1) -> length l + 3 <= fuel ->
  exists s' g', insert_sum fuel s g k a = Some (s', g') /\ invA s' g' (spec_step cmp l (call_op (CIns k a))).2.
Proof.
  intros (t & Hrep & <- & (N & HN) & Hout & HA) Hs Ha Hf. unfold insert_sum, call_op. cbn -[rbtree_insert augment_insert].
  assert (Hh := height_inorder t).
  destruct (insert_loop_ok cmp TO fuel s k [] t Hrep ltac:(lia)) as [(n & E & Hn)|(Hn & C' & E & HP & HS)].
  - assert (root s = rp t) as Hroot by apply Hrep. unfold rbtree_insert. rewrite Hroot. cbn in E. rewrite E. cbn -[augment_insert].
    rewrite <- tfind_lookup by done. rewrite Hn. cbn. exists s, g. split; [done|]. exists t. eauto 10.
  - assert (root s = rp t) as Hroot by apply Hrep. unfold rbtree_insert. rewrite Hroot. cbn in E. rewrite E.
    cbn -[link_node insert_color augment_insert]. rewrite <- tfind_lookup by done. rewrite Hn. cbn -[link_node insert_color augment_insert].
    destruct (HS Hs) as (l1 & l2 & E1 & E2 & F1 & F2). cbn in E1, E2, HP. rewrite app_nil_r in E2.
    rewrite <- HP in Hrep.
    assert (Haids : a ∉ ids (plug C' Leaf)).
    { rewrite HP, ids_inorder. apply Ha. by rewrite <- tfind_lookup. }
    destruct (link_ok s C' a k Hrep Haids) as (s1 & EL & H1 & So1). rewrite EL. cbn -[insert_color augment_insert].
    assert (Ein : inorder t = l1 ++ l2). { rewrite <- HP, inorder_plug, E1, E2. done. }
    rewrite <- HP in HN, HA. destruct (rbt_plug_ctx _ _ _ HN) as (c & n & Hrb & HRC).
    apply allc_plug in HA as [_ HA].
    assert (HI : rebalA F g a s1 (plug C' (Node false a k Leaf Leaf)) (insert_color fuel s1 a)).
    { assert (c = true /\ n = 0) as [-> ->] by (by inversion Hrb).
      eapply (insert_colorA_ok F g a fuel s1 C' a k Leaf Leaf 0); eauto.
      - repeat constructor.
      - pose proof (size_plug C' Leaf) as HSz. rewrite HP in HSz. cbn in HSz. lia.
      - constructor. }
    destruct HI as (s2 & t2 & EI & H2 & Hin2 & (N2 & HN2) & HO2 & So2). rewrite EI. cbn -[augment_insert].
    rewrite inorder_plug in Hin2. cbn in Hin2. rewrite E1, E2 in Hin2.
    destruct (augment_insert_ok F fuel s2 g a t2 H2 HO2) as (g' & EG & HA').
    { rewrite Hin2, app_length. rewrite Ein, app_length in Hf. cbn. lia. }
    rewrite EG. cbn. exists s2, g'. split; [done|]. exists t2. split_and!; [done| |eauto| |done].
    + rewrite Hin2. rewrite Ein, put_app by done. done.
    + intros q Hq.
      assert (Hids2 : ids t2 ≡ₚ ids (plug C' (Node false a k Leaf Leaf))).
      { rewrite !ids_inorder, Hin2, inorder_plug. cbn. by rewrite E1, E2. }
      rewrite Hids2 in Hq. rewrite So2 by done. rewrite So1 by done. apply Hout.
      rewrite ids_plug in Hq. rewrite <- HP, ids_plug. cbn in Hq |- *. set_solver.
Qed.

Lemma invA_remove fuel s g l n :
  invA s g l -> n ∈ l.*1 -> length l + 2 <= fuel ->
  exists s' g', remove_sum fuel s g n = Some (s', g') /\ invA s' g' (drop_node n l).
Proof using Type. clear TO cmp.
  intros (t & Hrep & <- & (N & HN) & Hout & HA) Hn Hf. rewrite <- ids_inorder in Hn.
  destruct (focus t n Hn) as (C & c & k & l' & r' & ->).
  destruct (erase_sum_ok F fuel s g C c n k l' r' N Hrep HN HA Hf) as (d & Ed & s1 & t1 & E & H1 & Hi & HN1 & So & HG).
  unfold remove_sum, rbtree_remove. rewrite Ed. cbn -[augment_erase_end]. rewrite E. cbn -[augment_erase_end].
  assert (ND : NoDup ((inorder (plug C (Node c n k l' r'))).*1)) by (rewrite <- ids_inorder; apply Hrep).
  assert (Hdrop : drop_node n (inorder (plug C (Node c n k l' r'))) = inorder t1).
  { rewrite Hi. rewrite inorder_plug in ND |- *. cbn in ND |- *. rewrite <- app_assoc in ND |- *. cbn in ND |- *.
    rewrite app_assoc in ND |- *. rewrite drop_node_focus by done. by rewrite <- app_assoc. }
  assert (Hn1 : n ∉ ids t1).
  { rewrite ids_inorder, <- Hdrop. unfold drop_node. intros (e & -> & He)%elem_of_list_fmap.
    apply elem_of_list_filter in He. naive_solver. }
  assert (H2 : rep (mks (delete n (heap s1)) (root s1)) t1).
  { destruct H1 as (R1 & R2 & R3). split_and!; [done| |done].
    eapply rept_frame; [|exact R2]. cbn. intros q Hq. rewrite lookup_delete_ne; [done|]. intros ->. done. }
  destruct (HG _ H2) as (g' & Eg & HA'). rewrite Eg. eexists _, g'. split; [done|].
  exists t1. split_and!; [exact H2|by rewrite Hdrop|done| |done].
  intros q Hq. cbn. destruct (decide (q = n)) as [->|Hne]; [by rewrite lookup_delete|].
  rewrite lookup_delete_ne by done. destruct (decide (q ∈ ids (plug C (Node c n k l' r')))) as [Hin|Hin].
  2: { rewrite So by done. by apply Hout. }
  exfalso. apply Hq. rewrite ids_inorder, <- Hdrop. rewrite ids_inorder in Hin.
  apply elem_of_list_fmap in Hin as (e & -> & He). apply elem_of_list_fmap. exists e. split; [done|].
  apply elem_of_list_filter. done.
Qed.

Lemma spec_run_2 l (o : op K) os : (spec_run cmp l (o :: os)).2 = (spec_run cmp (spec_step cmp l o).2 os).2.
Proof using Type. cbn -[spec_step]. destruct (spec_step cmp l o) as [r l1]. cbn. by destruct (spec_run cmp l1 os). Qed.
Lemma do_calls_ok cs fuel s g l :
  invA s g l -> strictly_sorted cmp l -> legal_run cmp l (map call_op cs) -> length l + length cs + 3 <= fuel ->
  exists s' g', do_calls fuel s g cs = Some (s', g') /\ invA s' g' (spec_run cmp l (map call_op cs)).2
    /\ length (spec_run cmp l (map call_op cs)).2 <= length l + length cs.
Proof.
  revert s g l. induction cs as [|c cs IH]; intros s g l Hi Hs HL Hf.
  - cbn. exists s, g. split_and!; [done|done|lia].
  - cbn [map legal_run] in HL. destruct HL as [HL HLs]. cbn [length] in Hf.
    assert (HS : exists s1 g1, do_call fuel s g c = Some (s1, g1) /\ invA s1 g1 (spec_step cmp l (call_op c)).2
      /\ strictly_sorted cmp (spec_step cmp l (call_op c)).2 /\ length (spec_step cmp l (call_op c)).2 <= S (length l)).
    { destruct c as [k a|n].
      - destruct HL as [Ha Hk]. destruct (invA_insert fuel s g l k a Hi Hs Ha ltac:(lia)) as (s1 & g1 & E1 & Hi1).
        exists s1, g1. split; [exact E1|]. split; [exact Hi1|]. cbn.
        destruct (lookup_key cmp k l) eqn:El; cbn; [split; [done|lia]|]. rewrite put_length. split; [|done].
        apply (put_sorted cmp TO); [exact Hs|exact El|exact Hk].
      - destruct (invA_remove fuel s g l n Hi HL ltac:(lia)) as (s1 & g1 & E1 & Hi1).
        exists s1, g1. split; [exact E1|]. split; [exact Hi1|]. cbn. split; [by apply drop_sorted|].
        unfold drop_node. pose proof (filter_length (fun e : positive * K => e.1 <> n) l). lia. }
    destruct HS as (s1 & g1 & E1 & Hi1 & Hs1 & Hlen).
    cbn [do_calls map]. rewrite E1, spec_run_2. cbn -[spec_step do_calls].
    destruct (IH s1 g1 _ Hi1 Hs1 HLs ltac:(lia)) as (s2 & g2 & E2 & Hi2 & Hlen2).
    exists s2, g2. split_and!; [exact E2|exact Hi2|lia].
Qed.

(** C87: after any insertions and removals, each with its call of rb_augment_*: the contents are
    those of the ordered list and every node has the right summary *)
Theorem C87_summaries (g0 : positive -> V) (cs : list (call)) (fuel : nat) :
  legal_run cmp [] (map call_op cs) -> length cs + 3 <= fuel ->
  exists s g, do_calls fuel empty_tree g0 cs = Some (s, g)
    /\ walk fuel s = Some (spec_run cmp [] (map call_op cs)).2
    /\ summaries_right s g.
Proof.
  intros HL Hf.
  assert (H0 : invA empty_tree g0 []).
  { destruct (@inv_empty K) as (t & Hr & Hi & HN & Ho). exists t. split_and!; try done. destruct t; [done|].
    cbn in Hi. by destruct (inorder t1). }
  destruct (do_calls_ok cs fuel empty_tree g0 [] H0 ltac:(constructor) HL Hf) as (s & g & E & Hi & Hlen).
  exists s, g. split; [done|]. split; [|by eapply invA_right]. cbn in Hlen. apply inv_walk; [by eapply invA_inv|lia].
Qed.
End rb_aug_props.
Print Assumptions C87_summaries.

(** ** C87: the summary of the root *)
Section root_summary.
Context {K V : Type} (cmp : K -> K -> Z) (v : K -> V) (op : V -> V -> V) (e : V).
Context (TO : total_order cmp).
Context (op_assoc : forall x y z, op x (op y z) = op (op x y) z) (op_l : forall x, op e x = x) (op_r : forall x, op x e = x).
(** what the caller's function computes: left summary, own value, right summary, combined *)
Definition combine (k : K) (l r : option V) : V := op (default e l) (op (v k) (default e r)).
Definition reduce (l : list (positive * K)) : V := foldr (fun x acc => op (v x.2) acc) e l.

Lemma reduce_app l1 l2 : reduce (l1 ++ l2) = op (reduce l1) (reduce l2).
Proof using op_assoc op_l. unfold reduce. induction l1 as [|x l1 IH]; cbn; [by rewrite op_l|]. by rewrite IH, op_assoc. Qed.
Lemma allc_reduce g t : allc combine g t -> default e (osum g (rp t)) = reduce (inorder t).
Proof using op_assoc op_l.
  induction t as [|c p k l IHl r IHr]; [done|]. cbn. intros (H & Hl & Hr). rewrite H. unfold combine.
  rewrite IHl, IHr by done. rewrite reduce_app. done.
Qed.

Theorem C87_root_summary (g0 : positive -> V) (cs : list (@call K)) (fuel : nat) :
  legal_run cmp [] (map call_op cs) -> length cs + 3 <= fuel ->
  exists s g, do_calls cmp combine fuel empty_tree g0 cs = Some (s, g)
    /\ match root s with
       | Some p => g p = reduce (spec_run cmp [] (map call_op cs)).2
       | None => (spec_run cmp [] (map call_op cs)).2 = []
       end.
Proof using TO op_assoc op_l.
  intros HL Hf.
  assert (H0 : invA combine empty_tree g0 []).
  { destruct (@inv_empty K) as (t & Hr & Hi & HN & Ho). exists t. split_and!; try done. destruct t; [done|].
    cbn in Hi. by destruct (inorder t1). }
  destruct (do_calls_ok cmp combine TO cs fuel empty_tree g0 [] H0 ltac:(constructor) HL Hf) as (s & g & E & Hi & _).
  exists s, g. split; [done|]. destruct Hi as (t & (Hr & _) & Hin & _ & _ & HA). rewrite Hr, <- Hin.
  apply allc_reduce in HA. destruct t; [done|]. exact HA.
Qed.
End root_summary.
Print Assumptions C87_root_summary.

(** ten insertions in an unfavourable order, then two removals (a node with two children, a
    leaf); the summary is the greatest end of the intervals (start, end) below a node, as for
    overlap queries *)
Definition ivl_cmp (x y : Z * Z) : Z := (x.1 - y.1)%Z.
Definition ivl_max : Z * Z -> option Z -> option Z -> Z := combine Datatypes.snd Z.max 0%Z.
Definition ivls : list (@call (Z * Z)) :=
  [CIns (1, 5)%Z 1; CIns (2, 90)%Z 2; CIns (3, 7)%Z 3; CIns (4, 8)%Z 4; CIns (5, 60)%Z 5;
   CIns (10, 11)%Z 6; CIns (9, 70)%Z 7; CIns (8, 9)%Z 8; CIns (7, 80)%Z 9; CIns (6, 99)%Z 10]%positive.
Definition seen (n : list positive) (r : option (rbs (Z * Z) * (positive -> Z))) : option (option Z * list Z) :=
  match r with Some (s, g) => Some (option_map g (root s), map g n) | None => None end.
Theorem C87_example :
  seen [1; 2; 3; 4; 5; 6; 7; 8; 9; 10]%positive (do_calls ivl_cmp ivl_max 20 empty_tree (fun _ => (-7)%Z) ivls)
    = Some (Some 99, [5; 90; 7; 99; 99; 11; 99; 9; 99; 99])%Z
  /\ seen [1; 2; 3; 5; 6; 7; 8; 9]%positive (do_calls ivl_cmp ivl_max 20 empty_tree (fun _ => (-7)%Z) (ivls ++ [CRem 4%positive; CRem 10%positive]))
    = Some (Some 90, [5; 90; 7; 90; 11; 80; 9; 80])%Z
  /\ legal_run ivl_cmp [] (map call_op (ivls ++ [CRem 4%positive; CRem 10%positive])) /\ total_order ivl_cmp.
Proof.
  split; [vm_compute; reflexivity|]. split; [vm_compute; reflexivity|]. split.
  - vm_compute. split_and!; try done; try (intros _); set_solver.
  - unfold total_order, ivl_cmp. split; intros; lia.
Qed.
Print Assumptions C87_example.
(** without rb_augment_insert the summary of a leaf stays unset *)
Theorem C87_needed :
  match exec_all ivl_cmp 20 empty_tree (map call_op (take 3 ivls)) with
  | Some (_, s) => ~ summaries_right ivl_max s (fun _ => (-7)%Z)
  | None => False
  end.
Proof.
  destruct (exec_all _ _ _ _) as [[rs s]|] eqn:E; [|by vm_compute in E].
  intros H. specialize (H 1%positive). assert (E2 : exists n, rd s 1%positive = Some n /\ dat n = (1, 5)%Z /\ lft n = None /\ rgt n = None).
  { revert E. vm_compute. intros [= <- <-]. eexists. split_and!; reflexivity. }
  destruct E2 as (n & En & E1 & E2 & E3). specialize (H n En). rewrite E1, E2, E3 in H. by vm_compute in H.
Qed.
Print Assumptions C87_needed.
