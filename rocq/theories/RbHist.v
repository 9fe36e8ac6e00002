(** Search, insertion, navigation; histories of operations refine the ordered association list. *)
From Verif Require Import RbModel RbZip RbRot RbInsert RbErase RbRemove RbSpec.

Section rb_hist.
Context {K : Type} (cmp : K -> K -> Z).
Implicit Types (s : rbs K) (t : tree K) (C : ctx K) (l : list (positive * K)).

(** one API call on the model *)
Definition exec (fuel : nat) s (o : op K) : option (out * rbs K) :=
  match o with
  | Ins k d a junk =>
      '(s, n, new) ← rbtree_insert cmp fuel s k a junk;
      s ← (if (new : bool) then upd s n (w_dat d) else Some s);
      Some (RIns n new, s)
  | Rem n => s ← rbtree_remove fuel s n; Some (RRem, s)
  | Find k => r ← rbtree_find cmp fuel s k; Some (RFind r, s)
  end.
Fixpoint exec_all (fuel : nat) s (os : list (op K)) : option (list out * rbs K) :=
  match os with
  | [] => Some ([], s)
  | o :: os => '(r, s) ← exec fuel s o; '(rs, s) ← exec_all fuel s os; Some (r :: rs, s)
  end.
Definition empty_tree : rbs K := mks ∅ None.

(** the caller's walk: for (n = rb_first(t); n; n = rb_next(n)) *)
Fixpoint walk_from (F fuel : nat) s (n : option positive) : option (list (positive * K)) :=
  match n with None => Some [] | Some n =>
  match fuel with O => None | S fuel =>
  nn ← rd s n; nx ← rb_next F s n; l ← walk_from F fuel s nx; Some ((n, dat nn) :: l)
  end end.
Definition walk (fuel : nat) s : option (list (positive * K)) :=
  f ← rb_first fuel s; walk_from fuel fuel s f.

Hypothesis TO : total_order cmp.

Lemma cmp_neg x y : (cmp x y < 0)%Z <-> (0 < cmp y x)%Z.
Proof. destruct TO as [H _]. pose proof (H y x). pose proof (H x y). lia. Qed.
Lemma cmp_zero x y : cmp x y = 0%Z <-> cmp y x = 0%Z.
Proof. destruct TO as [H _]. pose proof (H y x). pose proof (H x y). lia. Qed.
Lemma cmp_lt_trans x y z : (cmp x y < 0)%Z -> (cmp y z <= 0)%Z -> (cmp x z < 0)%Z.
Proof.
  intros H1 H2. destruct TO as [H T].
  destruct (Z.lt_ge_cases (cmp x z) 0) as [?|G]; [done|].
  assert (H3 : (cmp z x <= 0)%Z) by (apply H; lia). pose proof (T _ _ _ H2 H3). apply cmp_neg in H1. lia.
Qed.
Lemma cmp_le_lt_trans x y z : (cmp x y <= 0)%Z -> (cmp y z < 0)%Z -> (cmp x z < 0)%Z.
Proof.
  intros H1 H2. destruct TO as [H T].
  destruct (Z.lt_ge_cases (cmp x z) 0) as [?|G]; [done|].
  assert (H3 : (cmp z x <= 0)%Z) by (apply H; lia). pose proof (T _ _ _ H3 H1). apply cmp_neg in H2. lia.
Qed.

(** ** sorted lists *)
Notation sorted := (strictly_sorted cmp).
Lemma sorted_app l1 l2 :
  sorted (l1 ++ l2) <-> sorted l1 /\ sorted l2 /\ (forall a b, a ∈ l1 -> b ∈ l2 -> (cmp a.2 b.2 < 0)%Z).
Proof using cmp. clear TO.
  unfold strictly_sorted. induction l1 as [|x l1 IH]; cbn.
  - split; [intros; split_and!; [constructor|done|set_solver]|tauto].
  - split.
    + inversion 1 as [|? ? Hs Hf]; subst. apply IH in Hs as (H1 & H2 & H3). apply Forall_app in Hf as [Hf1 Hf2].
      split_and!; [by constructor|done|]. intros a b [->|Ha]%elem_of_cons Hb; [|by apply H3].
      rewrite Forall_forall in Hf2. by apply Hf2.
    + intros (H1 & H2 & H3). inversion H1 as [|? ? Hs Hf]; subst. constructor.
      * apply IH. split_and!; try done. intros; apply H3; set_solver.
      * apply Forall_app. split; [done|]. apply Forall_forall. intros y Hy. apply H3; set_solver.
Qed.
Lemma sorted_cons x l : sorted (x :: l) <-> sorted l /\ (forall b, b ∈ l -> (cmp x.2 b.2 < 0)%Z).
Proof using cmp. clear TO.
  unfold strictly_sorted. split.
  - inversion 1 as [|? ? Hs Hf]; subst. rewrite Forall_forall in Hf. done.
  - intros [H1 H2]. constructor; [done|]. by apply Forall_forall.
Qed.

Lemma lookup_key_app k l1 l2 :
  lookup_key cmp k (l1 ++ l2) = match lookup_key cmp k l1 with Some n => Some n | None => lookup_key cmp k l2 end.
Proof. induction l1 as [|[n d] l1 IH]; cbn; [done|]. by destruct (cmp k d =? 0)%Z. Qed.
Lemma lookup_key_none k l : lookup_key cmp k l = None <-> (forall e, e ∈ l -> cmp k e.2 <> 0%Z).
Proof using cmp. clear TO.
  induction l as [|[n d] l IH]; cbn; [set_solver|].
  destruct (Z.eqb_spec (cmp k d) 0) as [E|E].
  - split; [done|]. intros H. by destruct (H (n, d) ltac:(set_solver)).
  - rewrite IH. split; [intros H e [->|He]%elem_of_cons; [done|by apply H]|set_solver].
Qed.
Lemma lookup_key_some k l n : lookup_key cmp k l = Some n -> exists d, (n, d) ∈ l /\ cmp k d = 0%Z.
Proof using cmp. clear TO.
  induction l as [|[m d] l IH]; cbn; [done|]. destruct (Z.eqb_spec (cmp k d) 0) as [E|E].
  - intros [= ->]. exists d. split; [set_solver|done].
  - intros H. destruct (IH H) as (d' & ? & ?). exists d'. split; [set_solver|done].
Qed.

(** ** find *)
Fixpoint height t : nat := match t with Leaf => 0 | Node _ _ _ l r => S (max (height l) (height r)) end.
Fixpoint tfind k t : option positive :=
  match t with
  | Leaf => None
  | Node _ p d l r => if (cmp k d <? 0)%Z then tfind k l else if (0 <? cmp k d)%Z then tfind k r else Some p
  end.
Lemma find_loop_ok fuel s k pa t :
  rept (heap s) pa t -> height t <= fuel -> find_loop cmp fuel s k (rp t) = Some (tfind k t).
Proof.
  revert pa fuel; induction t as [|c p d l IHl r IHr]; intros pa fuel H Hf; cbn.
  - by destruct fuel.
  - destruct fuel as [|fuel]; [cbn in Hf; lia|]. cbn in Hf. destruct H as (Hp & Hl & Hr).
    cbn -[rd]. unfold rd. rewrite Hp. cbn. destruct (_ <? 0)%Z; [eapply IHl; eauto; lia|].
    destruct (0 <? _)%Z; [eapply IHr; eauto; lia|done].
Qed.
Lemma tfind_lookup k t : sorted (inorder t) -> tfind k t = lookup_key cmp k (inorder t).
Proof.
  induction t as [|c p d l IHl r IHr]; cbn; [done|].
  rewrite sorted_app, sorted_cons. intros (Hl & (Hr & Hpr) & Hlr). rewrite lookup_key_app. cbn.
  destruct (Z.ltb_spec (cmp k d) 0) as [Hlt|Hge].
  - rewrite IHl by done. destruct (lookup_key cmp k (inorder l)); [done|].
    destruct (Z.eqb_spec (cmp k d) 0); [lia|]. symmetry. apply lookup_key_none.
    intros e He E. specialize (Hpr e He). cbn in Hpr. pose proof (cmp_lt_trans _ _ _ Hlt (Z.lt_le_incl _ _ Hpr)). lia.
  - assert (lookup_key cmp k (inorder l) = None) as ->.
    { apply lookup_key_none. intros e He E. specialize (Hlr e (p, d) He ltac:(set_solver)). cbn in Hlr.
      assert (H : (cmp k d < 0)%Z) by (eapply cmp_le_lt_trans; [|exact Hlr]; lia). lia. }
    destruct (Z.ltb_spec 0 (cmp k d)) as [Hgt|Hle].
    + destruct (Z.eqb_spec (cmp k d) 0); [lia|]. by apply IHr.
    + destruct (Z.eqb_spec (cmp k d) 0); [done|lia].
Qed.

(** ** heights of red-black trees *)
Lemma height_inorder t : height t <= length (inorder t).
Proof. induction t; cbn; [lia|]. rewrite app_length. cbn. lia. Qed.
Lemma rbt_height c n t : rbt c n t -> height t <= 2 * n + (if c then 0 else 1).
Proof. induction 1; cbn in *; [lia|lia|]. destruct cl, cr; lia. Qed.
Lemma rbt_size c n t : rbt c n t -> 2 ^ n <= length (inorder t) + 1.
Proof. induction 1; cbn; rewrite ?app_length; cbn; lia. Qed.

(** ** insertion point *)
Definition locof C : loc := match C with [] => LRoot | FL _ p _ _ :: _ => LLeft p | FR _ p _ _ :: _ => LRight p end.

Lemma insert_loop_ok fuel s k C t :
  rep s (plug C t) -> height t <= fuel ->
  (exists n, insert_loop cmp fuel s k (rp t) (locof C) (pc C) = Some (inl n) /\ tfind k t = Some n) \/
  (tfind k t = None /\ exists C', insert_loop cmp fuel s k (rp t) (locof C) (pc C) = Some (inr (locof C', pc C'))
      /\ plug C' Leaf = plug C t /\
      (sorted (inorder t) -> exists l1 l2, lo C' = lo C ++ l1 /\ hi C' = l2 ++ hi C /\
         Forall (fun e => (0 < cmp k e.2)%Z) l1 /\ Forall (fun e => (cmp k e.2 < 0)%Z) l2)).
Proof.
  revert C fuel; induction t as [|c p d l IHl r IHr]; intros C fuel H Hf.
  - right. split; [done|]. exists C. split; [by destruct fuel|]. split; [done|]. intros _. exists [], [].
    rewrite app_nil_r. by repeat constructor.
  - destruct fuel as [|fuel]; [cbn in Hf; lia|]. cbn in Hf.
    cbn [rp]. cbn -[rd]. rewrite (rep_rd _ _ _ _ _ _ _ H). cbn -[rd].
    destruct (Z.ltb_spec (cmp k d) 0) as [Hlt|Hge].
    + destruct (IHl (FL c p d r :: C) fuel H ltac:(lia)) as [(n & E & Hn)|(Hn & C' & E & HP & Hs)].
      * left. exists n. split; [exact E|done].
      * right. split; [done|]. exists C'. split; [exact E|]. split; [exact HP|].
        intros Hso. rewrite sorted_app, sorted_cons in Hso. destruct Hso as (Hl & (Hr & Hpr) & Hlr).
        destruct (Hs Hl) as (l1 & l2 & E1 & E2 & F1 & F2). exists l1, (l2 ++ (p, d) :: inorder r).
        cbn in E1, E2. split_and!; [done| |done|].
        -- rewrite E2, <- app_assoc. done.
        -- apply Forall_app. split; [done|]. constructor; [done|]. apply Forall_forall. intros e He.
           eapply cmp_lt_trans; [exact Hlt|]. specialize (Hpr e He). cbn in Hpr. lia.
    + destruct (Z.ltb_spec 0 (cmp k d)) as [Hgt|Hle].
      * destruct (IHr (FR c p d l :: C) fuel H ltac:(lia)) as [(n & E & Hn)|(Hn & C' & E & HP & Hs)].
        -- left. exists n. split; [exact E|done].
        -- right. split; [done|]. exists C'. split; [exact E|]. split; [exact HP|].
           intros Hso. rewrite sorted_app, sorted_cons in Hso. destruct Hso as (Hl & (Hr & Hpr) & Hlr).
           destruct (Hs Hr) as (l1 & l2 & E1 & E2 & F1 & F2). exists (inorder l ++ (p, d) :: l1), l2.
           cbn in E1, E2. split_and!; [|done| |done].
           ++ rewrite E1, <- !app_assoc. done.
           ++ apply Forall_app. split; [|by constructor]. apply Forall_forall. intros e He.
              specialize (Hlr e (p, d) He ltac:(set_solver)). cbn in Hlr.
              assert ((cmp e.2 k < 0)%Z) by (eapply cmp_lt_trans; [exact Hlr|]; apply cmp_neg in Hgt; lia).
              by apply cmp_neg.
      * left. exists p. split; [done|done].
Qed.

Lemma put_app k e l1 l2 :
  Forall (fun x => (0 < cmp k x.2)%Z) l1 -> Forall (fun x => (cmp k x.2 < 0)%Z) l2 ->
  put cmp k e (l1 ++ l2) = l1 ++ e :: l2.
Proof.
  intros H1 H2. induction l1 as [|[n d] l1 IH]; cbn.
  - destruct l2 as [|[n d] l2]; cbn; [done|]. apply Forall_cons in H2 as [H2 _]. cbn in H2.
    destruct (Z.ltb_spec (cmp k d) 0); [done|lia].
  - apply Forall_cons in H1 as [H0 H1]. cbn in H0. destruct (Z.ltb_spec (cmp k d) 0); [lia|]. by rewrite IH.
Qed.

(** linking a fresh red leaf *)
Lemma link_ok s C a junk :
  rep s (plug C Leaf) -> a ∉ ids (plug C Leaf) ->
  exists s', link_node s a junk (pc C) (locof C) = Some s' /\
    rep s' (plug C (Node false a junk Leaf Leaf)) /\
    (forall q, q ∉ ids (plug C (Node false a junk Leaf Leaf)) -> heap s' !! q = heap s !! q).
Proof using Type. clear TO cmp.
  intros H Ha. apply rep_plug in H as (_ & HC & ND). rewrite ids_plug in Ha. cbn in Ha, ND.
  destruct s as [h rt]. cbn in HC. unfold link_node.
  set (nn := mkn (pc C) false None None junk).
  assert (HC1 : repc (<[a:=nn]> h) rt C None) by (by apply repc_insert_ne).
  assert (NDa : NoDup (a :: idsc C)) by (by constructor).
  destruct C as [|f C].
  - eexists. split; [done|]. split.
    + apply (proj2 (rep_plug _ [] _)). cbn. rewrite lookup_insert. split_and!; try done.
    + intros q Hq. cbn in Hq |- *. rewrite lookup_insert_ne; [done|set_solver].
  - cbn in HC1. destruct HC1 as (Hf & Hs & HC1).
    cbn in ND. apply NoDup_cons in ND as (Nf & ND).
    assert (Hafp : a <> fp f) by (cbn in Ha; set_solver).
    assert (exists s', match locof (f :: C) with LRoot => Some (set_root (mks (<[a:=nn]> h) rt) (Some a))
      | LLeft p => upd (mks (<[a:=nn]> h) rt) p (w_lft (Some a))
      | LRight p => upd (mks (<[a:=nn]> h) rt) p (w_rgt (Some a)) end = Some s' /\ root s' = rt /\
      heap s' = <[fp f := fnode f (pc C) (Some a)]> (<[a:=nn]> h)) as (s' & E & Ert & Eh).
    { destruct f as [c p k r|c p k l]; cbn in Hf |- *.
      - eexists. rewrite (upd_some _ _ _ _ _ Hf). split; [done|]. done.
      - eexists. rewrite (upd_some _ _ _ _ _ Hf). split; [done|]. done. }
    exists s'. split; [exact E|]. split.
    + apply rep_plug. rewrite Eh, Ert. split_and!.
      * cbn. rewrite lookup_insert_ne by done. rewrite lookup_insert. done.
      * cbn [repc rp]. split_and!; [by rewrite lookup_insert| |].
        -- apply rept_insert_ne; [|done]. set_solver.
        -- apply repc_insert_ne; [|done]. set_solver.
      * exact NDa.
    + intros q Hq. rewrite ids_plug in Hq. cbn in Hq. rewrite Eh.
      rewrite !lookup_insert_ne; [done|set_solver|set_solver].
Qed.

(** focusing on an element *)
Lemma focus t p : p ∈ ids t -> exists C c k tl tr, t = plug C (Node c p k tl tr).
Proof using Type. clear TO cmp.
  induction t as [|c q k l IHl r IHr]; cbn; [set_solver|].
  intros [->|[H|H]%elem_of_app]%elem_of_cons.
  - by exists [], c, k, l, r.
  - destruct (IHl H) as (C & c' & k' & l' & r' & ->). exists (C ++ [FL c q k r]), c', k', l', r'. by rewrite plug_app.
  - destruct (IHr H) as (C & c' & k' & l' & r' & ->). exists (C ++ [FR c q k l]), c', k', l', r'. by rewrite plug_app.
Qed.
Lemma focus_unique (a : positive) (x y : K) l1 l2 (r1 r2 : list (positive * K)) :
  NoDup ((l1 ++ (a, x) :: r1).*1) -> l1 ++ (a, x) :: r1 = l2 ++ (a, y) :: r2 -> l1 = l2 /\ x = y /\ r1 = r2.
Proof using Type. clear TO cmp.
  revert l2; induction l1 as [|[b z] l1 IH]; intros l2 ND E; destruct l2 as [|[b' z'] l2]; cbn in *.
  - by simplify_eq.
  - simplify_eq. exfalso. rewrite fmap_app in ND. cbn in ND. apply NoDup_cons in ND as [H _]. set_solver.
  - simplify_eq. exfalso. rewrite fmap_app in ND. cbn in ND. apply NoDup_cons in ND as [H _]. set_solver.
  - simplify_eq. apply NoDup_cons in ND as [_ ND]. destruct (IH l2 ND ltac:(done)) as (-> & -> & ->). done.
Qed.

(** ** the invariant: the state is a red-black tree listing [l], and nothing else is allocated *)
Definition inv s l : Prop :=
  exists t, rep s t /\ inorder t = l /\ (exists N, rbt true N t) /\ (forall q, q ∉ ids t -> heap s !! q = None).

Lemma inv_empty : inv empty_tree [].
Proof using Type. clear TO cmp. exists Leaf. split_and!; [|done|exists 0; constructor|by intros; apply lookup_empty]. by split_and!; [|done|constructor]. Qed.

Lemma inv_find fuel s l k :
  inv s l -> sorted l -> length l <= fuel -> rbtree_find cmp fuel s k = Some (lookup_key cmp k l).
Proof.
  intros (t & Hrep & <- & _ & _) Hs Hf. unfold rbtree_find. destruct Hrep as (-> & Ht & _).
  rewrite (find_loop_ok fuel s k None t Ht); [|pose proof (height_inorder t); lia]. by rewrite tfind_lookup.
Qed.

Lemma inv_insert fuel s l k d a junk :
  inv s l -> sorted l -> (lookup_key cmp k l = None -> a ∉ l.*1) -> length l + 3 <= fuel ->
  exists s', exec fuel s (Ins k d a junk) = Some ((spec_step cmp l (Ins k d a junk)).1, s')
    /\ inv s' (spec_step cmp l (Ins k d a junk)).2.
Proof.
  intros (t & Hrep & <- & (N & HN) & Hout) Hs Ha Hf. cbn -[rbtree_insert].
  assert (Hh := height_inorder t).
  destruct (insert_loop_ok fuel s k [] t Hrep ltac:(lia)) as [(n & E & Hn)|(Hn & C' & E & HP & HS)].
  - assert (root s = rp t) as Hroot by apply Hrep. unfold rbtree_insert. rewrite Hroot. cbn in E. rewrite E. cbn -[exec].
    rewrite <- tfind_lookup by done. rewrite Hn. cbn. exists s. split; [done|]. exists t. eauto.
  - assert (root s = rp t) as Hroot by apply Hrep. unfold rbtree_insert. rewrite Hroot. cbn in E. rewrite E.
    cbn -[link_node insert_color]. rewrite <- tfind_lookup by done. rewrite Hn. cbn -[link_node insert_color].
    destruct (HS Hs) as (l1 & l2 & E1 & E2 & F1 & F2). cbn in E1, E2, HP. rewrite app_nil_r in E2.
    rewrite <- HP in Hrep.
    assert (Haids : a ∉ ids (plug C' Leaf)).
    { rewrite HP, ids_inorder. apply Ha. by rewrite <- tfind_lookup. }
    destruct (link_ok s C' a junk Hrep Haids) as (s1 & EL & H1 & So1). rewrite EL. cbn -[insert_color].
    assert (Ein : inorder t = l1 ++ l2). { rewrite <- HP, inorder_plug, E1, E2. done. }
    rewrite <- HP in HN. destruct (rbt_plug_ctx _ _ _ HN) as (c & n & Hrb & HRC).
    assert (HI : rebal s1 (plug C' (Node false a junk Leaf Leaf)) (insert_color fuel s1 a)).
    { assert (c = true /\ n = 0) as [-> ->] by (by inversion Hrb). eapply (insert_color_ok fuel s1 C' a junk Leaf Leaf 0); eauto.
      - repeat constructor.
      - pose proof (size_plug C' Leaf) as HSz. rewrite HP in HSz. cbn in HSz. lia. }
    destruct HI as (s2 & t2 & EI & H2 & Hin2 & (N2 & HN2) & So2). rewrite EI. cbn -[upd].
    rewrite inorder_plug in Hin2. cbn in Hin2. rewrite E1, E2 in Hin2.
    assert (Ha2 : a ∈ ids t2). { rewrite ids_inorder, Hin2, fmap_app. cbn. set_solver. }
    destruct (focus t2 a Ha2) as (C2 & c2 & k2 & l' & r' & Et2). subst t2.
    destruct (rep_set_dat s2 C2 c2 a k2 l' r' d H2) as (s3 & E3 & H3 & _ & So3). rewrite E3. cbn.
    exists s3. split; [done|]. exists (plug C2 (Node c2 a d l' r')).
    assert (ND2 : NoDup ((inorder (plug C2 (Node c2 a k2 l' r'))).*1)).
    { rewrite <- ids_inorder. apply H2. }
    split_and!; [done| | |].
    + rewrite inorder_plug in Hin2, ND2 |- *. cbn in Hin2, ND2 |- *. rewrite <- app_assoc in Hin2, ND2. cbn in Hin2, ND2.
      rewrite app_assoc in Hin2, ND2.
      destruct (focus_unique _ _ _ _ _ _ _ ND2 Hin2) as (El & _ & Er).
      rewrite Ein, put_app by done. rewrite <- El, <- Er, <- !app_assoc. done.
    + destruct (rbt_plug_ctx _ _ _ HN2) as (c0 & n0 & Hrb0 & HRC0).
      eapply rbt_plug; [|exact HRC0]. inversion Hrb0; simplify_eq; econstructor; eauto.
    + intros q Hq.
      assert (Hidseq : ids (plug C2 (Node c2 a d l' r')) ≡ₚ ids (plug C2 (Node c2 a k2 l' r'))).
      { by rewrite !ids_plug. }
      rewrite Hidseq in Hq. rewrite So3 by done.
      assert (Hids2 : ids (plug C2 (Node c2 a k2 l' r')) ≡ₚ ids (plug C' (Node false a junk Leaf Leaf))).
      { rewrite !ids_inorder, Hin2, inorder_plug. cbn. by rewrite E1, E2. }
      rewrite Hids2 in Hq. rewrite So2 by done. rewrite So1 by done. apply Hout.
      rewrite ids_plug in Hq. rewrite <- HP, ids_plug. cbn in Hq |- *. set_solver.
Qed.

Lemma drop_node_focus l1 a (x : K) l2 :
  NoDup ((l1 ++ (a, x) :: l2).*1) -> drop_node a (l1 ++ (a, x) :: l2) = l1 ++ l2.
Proof using Type. clear TO cmp.
  rewrite fmap_app. cbn. intros ND. apply NoDup_app in ND as (ND1 & ND2 & ND3). apply NoDup_cons in ND3 as [Na ND3].
  unfold drop_node. rewrite filter_app, filter_cons_False by (cbn; naive_solver).
  assert (forall l : list (positive * K), a ∉ l.*1 -> filter (fun e => e.1 <> a) l = l) as HF.
  { clear. induction l as [|e l IH]; [done|]. intros H. rewrite fmap_cons, not_elem_of_cons in H. destruct H as [H1 H2].
    rewrite filter_cons_True by done. by rewrite IH. }
  rewrite !HF; [done|done|]. intros H. apply (ND2 a H). set_solver.
Qed.

Lemma inv_remove fuel s l n :
  inv s l -> n ∈ l.*1 -> length l + 2 <= fuel ->
  exists s', rbtree_remove fuel s n = Some s' /\ inv s' (drop_node n l).
Proof using Type. clear TO cmp.
  intros (t & Hrep & <- & (N & HN) & Hout) Hn Hf. rewrite <- ids_inorder in Hn.
  destruct (focus t n Hn) as (C & c & k & l' & r' & ->).
  destruct (erase_ok fuel s C c n k l' r' N Hrep HN Hf) as (s1 & t1 & E & H1 & Hi & HN1 & So).
  unfold rbtree_remove. rewrite E. cbn. eexists. split; [done|].
  assert (ND : NoDup ((inorder (plug C (Node c n k l' r'))).*1)) by (rewrite <- ids_inorder; apply Hrep).
  assert (Hdrop : drop_node n (inorder (plug C (Node c n k l' r'))) = inorder t1).
  { rewrite Hi. rewrite inorder_plug in ND |- *. cbn in ND |- *. rewrite <- app_assoc in ND |- *. cbn in ND |- *.
    rewrite app_assoc in ND |- *. rewrite drop_node_focus by done. by rewrite <- app_assoc. }
  assert (Hn1 : n ∉ ids t1).
  { rewrite ids_inorder, <- Hdrop. unfold drop_node. intros (e & -> & He)%elem_of_list_fmap.
    apply elem_of_list_filter in He. naive_solver. }
  exists t1. split_and!; [|by rewrite Hdrop|done|].
  - destruct H1 as (R1 & R2 & R3). split_and!; [done| |done].
    eapply rept_frame; [|exact R2]. cbn. intros q Hq. rewrite lookup_delete_ne; [done|]. intros ->. done.
  - intros q Hq. cbn. destruct (decide (q = n)) as [->|Hne]; [by rewrite lookup_delete|].
    rewrite lookup_delete_ne by done. destruct (decide (q ∈ ids (plug C (Node c n k l' r')))) as [Hin|Hin].
    2: { rewrite So by done. by apply Hout. }
    exfalso. apply Hq. rewrite ids_inorder, <- Hdrop. rewrite ids_inorder in Hin.
    apply elem_of_list_fmap in Hin as (e & -> & He). apply elem_of_list_fmap. exists e. split; [done|].
    apply elem_of_list_filter. done.
Qed.
End rb_hist.
