(** Red-black invariants on trees and contexts; correctness of rb_insert_color. *)
From Verif Require Import RbModel RbZip RbRot.

Section rb_insert.
Context {K : Type}.
Implicit Types (s : rbs K) (t : tree K) (C : ctx K).

(** in-order listing of (address, data) *)
Fixpoint inorder t : list (positive * K) :=
  match t with Leaf => [] | Node _ p k l r => inorder l ++ (p, k) :: inorder r end.

(** [rbt c n t]: t is a red-black tree whose root has colour c (true = black, leaves count as
    black) and black height n *)
Inductive rbt : bool -> nat -> tree K -> Prop :=
| rbt_leaf : rbt true 0 Leaf
| rbt_red n p k l r : rbt true n l -> rbt true n r -> rbt false n (Node false p k l r)
| rbt_blk n cl cr p k l r : rbt cl n l -> rbt cr n r -> rbt true (S n) (Node true p k l r).
Definition fc (f : frame K) : bool := match f with FL c _ _ _ | FR c _ _ _ => c end.
(** [rbc c n C]: filling the hole with a tree of root colour c, black height n gives a red-black tree *)
Inductive rbc : bool -> nat -> ctx K -> Prop :=
| rbc_nil n : rbc true n []
| rbc_blk c c' n f C : fc f = true -> rbt c' n (fsib f) -> rbc true (S n) C -> rbc c n (f :: C)
| rbc_red n f C : fc f = false -> rbt true n (fsib f) -> rbc false n C -> rbc true n (f :: C).

Lemma rbt_plug C c n t : rbt c n t -> rbc c n C -> exists N, rbt true N (plug C t).
Proof.
  revert c n t; induction C as [|f C IH]; intros c n t Ht HC; inversion HC; simplify_eq; cbn.
  - eauto.
  - destruct f; cbn in *; simplify_eq; eapply IH; eauto; econstructor; eauto.
  - destruct f; cbn in *; simplify_eq; eapply IH; eauto; econstructor; eauto.
Qed.

Lemma inorder_plug_eq C t t' : inorder t = inorder t' -> inorder (plug C t) = inorder (plug C t').
Proof.
  revert t t'; induction C as [|f C IH]; intros t t' E; cbn; [done|].
  apply IH. destruct f; cbn; by rewrite E.
Qed.
Lemma ids_inorder t : ids t ≡ₚ (inorder t).*1.
Proof.
  induction t as [|c p k l IHl r IHr]; cbn; [done|].
  rewrite fmap_app; cbn. rewrite IHl, IHr. solve_Permutation.
Qed.
Lemma inorder_ids t t' : inorder t = inorder t' -> ids t ≡ₚ ids t'.
Proof. intros E. by rewrite !ids_inorder, E. Qed.
Lemma size_plug C t : length (inorder (plug C t)) >= length C + length (inorder t).
Proof.
  revert t; induction C as [|f C IH]; intros t; cbn; [lia|].
  specialize (IH (fill f t)). destruct f; cbn in *; rewrite app_length in IH; cbn in IH; lia.
Qed.

Definition blacken t := match t with Leaf => Leaf | Node _ p k l r => Node true p k l r end.
Lemma blacken_inorder t : inorder (blacken t) = inorder t.
Proof. by destruct t. Qed.
Lemma blacken_rbt c n t : rbt c n t -> exists m, rbt true m (blacken t).
Proof. intros H; inversion H; simplify_eq; cbn; eexists; econstructor; eauto. Qed.
Lemma blacken_id n t : rbt true n t -> blacken t = t.
Proof. intros H; inversion H; simplify_eq; done. Qed.

Lemma finish_ok s t :
  rep s t -> t <> Leaf ->
  exists s', (r ← root s; upd s r (w_blk true)) = Some s' /\ rep s' (blacken t) /\ same_out s s' t.
Proof.
  intros H Hn. destruct t as [|c p k l r]; [done|].
  destruct (rep_set_color s [] c p k l r true H) as (s' & E & Hr & _ & So).
  destruct H as (Hroot & _). cbn in Hroot. rewrite Hroot; cbn -[upd]. eauto.
Qed.

Lemma same_out_refl s t : same_out s s t. Proof. intros ??; done. Qed.

(** what every rebalancing call achieves, relative to the tree [t0] it started from *)
Definition rebal s t0 (r : option (rbs K)) : Prop :=
  exists s' t', r = Some s' /\ rep s' t' /\ inorder t' = inorder t0
     /\ (exists N, rbt true N t') /\ same_out s s' t0.

Lemma rebal_step s s1 t0 t1 r :
  same_out s s1 t0 -> rep s1 t1 -> inorder t1 = inorder t0 -> rebal s1 t1 r -> rebal s t0 r.
Proof.
  intros So _ E (s' & t' & -> & Hrep & Ein & Hrb & So').
  exists s', t'. split_and!; try done; [congruence|].
  eapply same_out_trans; [done|done|]. by apply inorder_ids.
Qed.

Lemma insert_color_stop fuel s C f c p k l r N :
  rep s (plug (f :: C) (Node c p k l r)) -> fc f = true ->
  rbt true N (plug (f :: C) (Node c p k l r)) -> fuel <> O ->
  rebal s (plug (f :: C) (Node c p k l r)) (insert_color fuel s p).
Proof.
  intros H Hf HN Hfuel. destruct fuel as [|fuel]; [done|]. cbn [insert_color].
  rewrite (rep_rd _ _ _ _ _ _ _ H); cbn -[upd rd].
  assert (Hp : rd s (fp f) = Some (fnode f (pc C) (Some p))).
  { apply (proj1 (rep_plug s (f::C) _)) in H. destruct H as (_ & HC & _). cbn in HC. unfold rd; naive_solver. }
  rewrite Hp; cbn -[upd rd].
  assert (Hb : blk (fnode f (pc C) (Some p)) = true) by (destruct f; done).
  rewrite Hb.
  destruct (finish_ok s _ H) as (s' & E & Hr & So).
  { intros E. pose proof (size_plug (f::C) (Node c p k l r)) as HS. rewrite E in HS. cbn in HS. lia. }
  exists s', (blacken (plug (f :: C) (Node c p k l r))).
  split_and!; [exact E|done|apply blacken_inorder| |done].
  exists N. by erewrite blacken_id.
Qed.

Lemma insert_color_ok fuel s C p k l r n :
  rep s (plug C (Node false p k l r)) -> rbt false n (Node false p k l r) -> rbc true n C ->
  length C + 2 <= fuel ->
  rebal s (plug C (Node false p k l r)) (insert_color fuel s p).
Proof.
  revert s C p k l r n; induction fuel as [|fuel IH]; intros s C p k l r n H Ht HC Hf; [lia|].
  inversion HC as [n'|c c' n' f C' Hfc Hsib HC'|n' f C' Hfc Hsib HC']; simplify_eq.
  - (* root *)
    cbn [insert_color]. rewrite (rep_rd _ _ _ _ _ _ _ H); cbn -[upd rd].
    destruct (finish_ok s _ H ltac:(done)) as (s' & E & Hr & So).
    exists s', (Node true p k l r). split_and!; [exact E|done|done| |done].
    destruct (blacken_rbt _ _ _ Ht) as [m Hm]. eauto.
  - (* black parent *)
    destruct (rbt_plug (f :: C') _ _ _ Ht) as [N HN]. { eapply rbc_blk; eauto. }
    eapply insert_color_stop; eauto.
  - (* red parent: the grandparent exists and is black *)
    inversion HC' as [n'|c c' n' g C Hgc Hu HC2|]; simplify_eq.
    inversion Ht as [|? ? ? ? ? Hl Hr|]; simplify_eq.
    assert (Hp : rd s (fp f) = Some (fnode f (Some (fp g)) (Some p))).
    { apply (proj1 (rep_plug s (f::g::C) _)) in H. destruct H as (_ & HH & _). cbn in HH. unfold rd; naive_solver. }
    assert (Hg : rd s (fp g) = Some (fnode g (pc C) (Some (fp f)))).
    { apply (proj1 (rep_plug s (f::g::C) _)) in H. destruct H as (_ & HH & _). cbn in HH. unfold rd; naive_solver. }
    assert (Hpn : forall q, rp (fsib f) = Some q -> q <> p).
    { intros q E%rp_elem ->. destruct H as (_ & _ & ND). rewrite ids_plug in ND. cbn in ND.
      rewrite NoDup_cons in ND. set_solver. }
    assert (Hgf : forall q, rp (fsib g) = Some q -> q <> fp f).
    { intros q E%rp_elem ->. destruct H as (_ & _ & ND). rewrite ids_plug in ND. cbn in ND.
      rewrite NoDup_cons, !NoDup_app, NoDup_cons, NoDup_app in ND. set_solver. }
    cbn [insert_color]. rewrite (rep_rd _ _ _ _ _ _ _ H); cbn -[upd rd is_red_opt rotate_left rotate_right].
    rewrite Hp; cbn -[upd rd is_red_opt rotate_left rotate_right].
    replace (blk (fnode f (Some (fp g)) (Some p))) with false by (destruct f; done).
    replace (par (fnode f (Some (fp g)) (Some p))) with (Some (fp g)) by (destruct f; done).
    cbn -[upd rd is_red_opt rotate_left rotate_right].
    rewrite Hg; cbn -[upd rd is_red_opt rotate_left rotate_right].
    destruct g as [gc gp gk ut|gc gp gk ut]; cbn -[upd rd is_red_opt rotate_left rotate_right] in *; subst gc.
    + (* parent is the left child *)
      rewrite decide_True by done.
      destruct ut as [|uc up uk ul ur].
      2: destruct uc.
      2: { (* black uncle *)
        assert (HU : is_red_opt s (rp (Node true up uk ul ur)) = Some false).
        { cbn -[rd]. replace (plug C (Node true gp gk (fill f (Node false p k l r)) (Node true up uk ul ur)))
            with (plug (FR true gp gk (fill f (Node false p k l r)) :: C) (Node true up uk ul ur)) in H by done.
          by rewrite (rep_rd _ _ _ _ _ _ _ H). }
        cbn [rp] in HU |- *. rewrite HU; cbn -[upd rd rotate_left rotate_right].
        destruct f as [pcol pp pk sib|pcol pp pk sib]; cbn -[upd rd rotate_left rotate_right] in *; subst pcol.
        - (* node is left child: single rotation *)
          rewrite decide_False by (intros E; by apply (Hpn _ E)).
          cbn -[upd rd rotate_left rotate_right].
          destruct (rep_set_color s (FL true gp gk (Node true up uk ul ur) :: C) false pp pk (Node false p k l r) sib true H)
            as (s1 & E1 & H1 & _ & So1). rewrite E1; cbn -[upd rd rotate_left rotate_right].
          destruct (rep_set_color s1 C true gp gk (Node true pp pk (Node false p k l r) sib) (Node true up uk ul ur) false H1)
            as (s2 & E2 & H2 & _ & So2). rewrite E2; cbn -[upd rd rotate_left rotate_right].
          destruct (rotate_right_ok s2 C _ _ _ _ _ _ _ _ _ H2) as (s3 & E3 & H3 & So3).
          rewrite E3; cbn -[upd rd rotate_left rotate_right].
          eapply rebal_step; [exact So1|exact H1|by apply (inorder_plug_eq C)|].
          eapply rebal_step; [exact So2|exact H2|by apply (inorder_plug_eq C)|].
          eapply rebal_step; [exact So3|exact H3|apply (inorder_plug_eq C); cbn; by rewrite <- !app_assoc|].
          assert (HN : exists N, rbt true N (plug C (Node true pp pk (Node false p k l r) (Node false gp gk sib (Node true up uk ul ur))))).
          { eapply rbt_plug; [|exact HC2]. econstructor; [exact Ht|]. econstructor; [done|].
            inversion Hu; simplify_eq. econstructor; eauto. }
          destruct HN as [N HN].
          eapply (insert_color_stop fuel s3 C (FL true pp pk (Node false gp gk sib (Node true up uk ul ur)))); eauto; lia.
        - rewrite decide_True by done.
          destruct (rotate_left_ok s (FL true gp gk (Node true up uk ul ur) :: C) _ _ _ _ _ _ _ _ _ H) as (s0 & E0 & H0 & So0).
          rewrite E0; cbn -[upd rd rotate_left rotate_right].
          destruct (rep_set_color s0 (FL true gp gk (Node true up uk ul ur) :: C) false p k (Node false pp pk sib l) r true H0)
            as (s1 & E1 & H1 & _ & So1). rewrite E1; cbn -[upd rd rotate_left rotate_right].
          destruct (rep_set_color s1 C true gp gk (Node true p k (Node false pp pk sib l) r) (Node true up uk ul ur) false H1)
            as (s2 & E2 & H2 & _ & So2). rewrite E2; cbn -[upd rd rotate_left rotate_right].
          destruct (rotate_right_ok s2 C _ _ _ _ _ _ _ _ _ H2) as (s3 & E3 & H3 & So3).
          rewrite E3; cbn -[upd rd rotate_left rotate_right].
          eapply rebal_step; [exact So0|exact H0|apply (inorder_plug_eq C); cbn; rewrite <- ?app_assoc; cbn; by rewrite <- ?app_assoc|].
          eapply rebal_step; [exact So1|exact H1|by apply (inorder_plug_eq C)|].
          eapply rebal_step; [exact So2|exact H2|by apply (inorder_plug_eq C)|].
          eapply rebal_step; [exact So3|exact H3|apply (inorder_plug_eq C); cbn; rewrite <- ?app_assoc; cbn; by rewrite <- ?app_assoc|].
          assert (HN : exists N, rbt true N (plug C (Node true p k (Node false pp pk sib l) (Node false gp gk r (Node true up uk ul ur))))).
          { eapply rbt_plug; [|exact HC2]. econstructor; econstructor; eauto.
            inversion Hu; simplify_eq. econstructor; eauto. }
          destruct HN as [N HN].
          eapply (insert_color_stop fuel s3 C (FL true p k (Node false gp gk r (Node true up uk ul ur)))); eauto; lia. }
      * (* no uncle *)
        cbn -[upd rd rotate_left rotate_right].
        destruct f as [pcol pp pk sib|pcol pp pk sib]; cbn -[upd rd rotate_left rotate_right] in *; subst pcol.
        -- rewrite decide_False by (intros E; by apply (Hpn _ E)).
          cbn -[upd rd rotate_left rotate_right].
          destruct (rep_set_color s (FL true gp gk Leaf :: C) false pp pk (Node false p k l r) sib true H)
            as (s1 & E1 & H1 & _ & So1). rewrite E1; cbn -[upd rd rotate_left rotate_right].
          destruct (rep_set_color s1 C true gp gk (Node true pp pk (Node false p k l r) sib) Leaf false H1)
            as (s2 & E2 & H2 & _ & So2). rewrite E2; cbn -[upd rd rotate_left rotate_right].
          destruct (rotate_right_ok s2 C _ _ _ _ _ _ _ _ _ H2) as (s3 & E3 & H3 & So3).
          rewrite E3; cbn -[upd rd rotate_left rotate_right].
          eapply rebal_step; [exact So1|exact H1|by apply (inorder_plug_eq C)|].
          eapply rebal_step; [exact So2|exact H2|by apply (inorder_plug_eq C)|].
          eapply rebal_step; [exact So3|exact H3|apply (inorder_plug_eq C); cbn; by rewrite <- !app_assoc|].
          assert (HN : exists N, rbt true N (plug C (Node true pp pk (Node false p k l r) (Node false gp gk sib Leaf)))).
          { eapply rbt_plug; [|exact HC2]. econstructor; [exact Ht|]. econstructor; [done|].
            inversion Hu; simplify_eq. econstructor; eauto. }
          destruct HN as [N HN].
          eapply (insert_color_stop fuel s3 C (FL true pp pk (Node false gp gk sib Leaf))); eauto; lia.
        -- rewrite decide_True by done.
          destruct (rotate_left_ok s (FL true gp gk Leaf :: C) _ _ _ _ _ _ _ _ _ H) as (s0 & E0 & H0 & So0).
          rewrite E0; cbn -[upd rd rotate_left rotate_right].
          destruct (rep_set_color s0 (FL true gp gk Leaf :: C) false p k (Node false pp pk sib l) r true H0)
            as (s1 & E1 & H1 & _ & So1). rewrite E1; cbn -[upd rd rotate_left rotate_right].
          destruct (rep_set_color s1 C true gp gk (Node true p k (Node false pp pk sib l) r) Leaf false H1)
            as (s2 & E2 & H2 & _ & So2). rewrite E2; cbn -[upd rd rotate_left rotate_right].
          destruct (rotate_right_ok s2 C _ _ _ _ _ _ _ _ _ H2) as (s3 & E3 & H3 & So3).
          rewrite E3; cbn -[upd rd rotate_left rotate_right].
          eapply rebal_step; [exact So0|exact H0|apply (inorder_plug_eq C); cbn; rewrite <- ?app_assoc; cbn; by rewrite <- ?app_assoc|].
          eapply rebal_step; [exact So1|exact H1|by apply (inorder_plug_eq C)|].
          eapply rebal_step; [exact So2|exact H2|by apply (inorder_plug_eq C)|].
          eapply rebal_step; [exact So3|exact H3|apply (inorder_plug_eq C); cbn; rewrite <- ?app_assoc; cbn; by rewrite <- ?app_assoc|].
          assert (HN : exists N, rbt true N (plug C (Node true p k (Node false pp pk sib l) (Node false gp gk r Leaf)))).
          { eapply rbt_plug; [|exact HC2]. econstructor; econstructor; eauto.
            inversion Hu; simplify_eq. econstructor; eauto. }
          destruct HN as [N HN].
          eapply (insert_color_stop fuel s3 C (FL true p k (Node false gp gk r Leaf))); eauto; lia.
      * (* red uncle: recolour and go up *)
        assert (HU : is_red_opt s (rp (Node false up uk ul ur)) = Some true).
        { cbn -[rd]. replace (plug C (Node true gp gk (fill f (Node false p k l r)) (Node false up uk ul ur)))
            with (plug (FR true gp gk (fill f (Node false p k l r)) :: C) (Node false up uk ul ur)) in H by done.
          by rewrite (rep_rd _ _ _ _ _ _ _ H). }
        cbn [rp] in HU |- *. rewrite HU; cbn -[upd rd rotate_left rotate_right].
        destruct (rep_set_color s (FR true gp gk (fill f (Node false p k l r)) :: C) false up uk ul ur true H)
          as (s1 & E1 & H1 & _ & So1). rewrite E1; cbn -[upd rd rotate_left rotate_right].
        assert (HH : exists s2, upd s1 (fp f) (w_blk true) = Some s2 /\
           exists pl pr ppk, rep s2 (plug (FL true gp gk (Node true up uk ul ur) :: C) (Node true (fp f) ppk pl pr))
             /\ rbt true (S n) (Node true (fp f) ppk pl pr)
             /\ inorder (Node true (fp f) ppk pl pr) = inorder (fill f (Node false p k l r))
             /\ same_out s1 s2 (plug (FR true gp gk (fill f (Node false p k l r)) :: C) (Node true up uk ul ur))).
        { destruct f as [pcol pp pk sib|pcol pp pk sib]; cbn in *; subst pcol.
          - destruct (rep_set_color s1 (FL true gp gk (Node true up uk ul ur) :: C) false pp pk (Node false p k l r) sib true H1)
              as (s2 & E2 & H2 & _ & So2).
            exists s2. split; [done|]. exists (Node false p k l r), sib, pk. split_and!; try done.
            econstructor; eauto.
          - destruct (rep_set_color s1 (FL true gp gk (Node true up uk ul ur) :: C) false pp pk sib (Node false p k l r) true H1)
              as (s2 & E2 & H2 & _ & So2).
            exists s2. split; [done|]. exists sib, (Node false p k l r), pk. split_and!; try done.
            econstructor; eauto. }
        destruct HH as (s2 & E2 & pl & pr & ppk & H2 & Hrb2 & Ein2 & So2).
        rewrite E2; cbn -[upd rd rotate_left rotate_right].
        destruct (rep_set_color s2 C true gp gk _ _ false H2) as (s3 & E3 & H3 & _ & So3).
        rewrite E3; cbn -[upd rd rotate_left rotate_right].
        eapply rebal_step; [exact So1|exact H1|by apply (inorder_plug_eq C)|].
        eapply rebal_step; [exact So2|exact H2|apply (inorder_plug_eq C); cbn in *; by rewrite Ein2|].
        eapply rebal_step; [exact So3|exact H3|by apply (inorder_plug_eq C)|].
        eapply IH; [exact H3| |exact HC2|lia].
        inversion Hu; simplify_eq.
        econstructor; [done|]. econstructor; eauto.
    + (* parent is the right child *)
      rewrite decide_False by (intros E; by apply (Hgf _ E)).
      destruct ut as [|uc up uk ul ur].
      2: destruct uc.
      2: { (* black uncle *)
        assert (HU : is_red_opt s (rp (Node true up uk ul ur)) = Some false).
        { cbn -[rd]. replace (plug C (Node true gp gk (Node true up uk ul ur) (fill f (Node false p k l r))))
            with (plug (FL true gp gk (fill f (Node false p k l r)) :: C) (Node true up uk ul ur)) in H by done.
          by rewrite (rep_rd _ _ _ _ _ _ _ H). }
        cbn [rp] in HU |- *. rewrite HU; cbn -[upd rd rotate_left rotate_right].
        destruct f as [pcol pp pk sib|pcol pp pk sib]; cbn -[upd rd rotate_left rotate_right] in *; subst pcol.
        - rewrite decide_True by done.
          destruct (rotate_right_ok s (FR true gp gk (Node true up uk ul ur) :: C) _ _ _ _ _ _ _ _ _ H) as (s0 & E0 & H0 & So0).
          rewrite E0; cbn -[upd rd rotate_left rotate_right].
          destruct (rep_set_color s0 (FR true gp gk (Node true up uk ul ur) :: C) false p k l (Node false pp pk r sib) true H0)
            as (s1 & E1 & H1 & _ & So1). rewrite E1; cbn -[upd rd rotate_left rotate_right].
          destruct (rep_set_color s1 C true gp gk (Node true up uk ul ur) (Node true p k l (Node false pp pk r sib)) false H1)
            as (s2 & E2 & H2 & _ & So2). rewrite E2; cbn -[upd rd rotate_left rotate_right].
          destruct (rotate_left_ok s2 C _ _ _ _ _ _ _ _ _ H2) as (s3 & E3 & H3 & So3).
          rewrite E3; cbn -[upd rd rotate_left rotate_right].
          eapply rebal_step; [exact So0|exact H0|apply (inorder_plug_eq C); cbn; rewrite <- ?app_assoc; cbn; by rewrite <- ?app_assoc|].
          eapply rebal_step; [exact So1|exact H1|by apply (inorder_plug_eq C)|].
          eapply rebal_step; [exact So2|exact H2|by apply (inorder_plug_eq C)|].
          eapply rebal_step; [exact So3|exact H3|apply (inorder_plug_eq C); cbn; rewrite <- ?app_assoc; cbn; by rewrite <- ?app_assoc|].
          assert (HN : exists N, rbt true N (plug C (Node true p k (Node false gp gk (Node true up uk ul ur) l) (Node false pp pk r sib)))).
          { eapply rbt_plug; [|exact HC2]. econstructor; econstructor; eauto.
            inversion Hu; simplify_eq. econstructor; eauto. }
          destruct HN as [N HN].
          eapply (insert_color_stop fuel s3 C (FR true p k (Node false gp gk (Node true up uk ul ur) l))); eauto; lia.
        - rewrite decide_False by (intros E; by apply (Hpn _ E)).
          cbn -[upd rd rotate_left rotate_right].
          destruct (rep_set_color s (FR true gp gk (Node true up uk ul ur) :: C) false pp pk sib (Node false p k l r) true H)
            as (s1 & E1 & H1 & _ & So1). rewrite E1; cbn -[upd rd rotate_left rotate_right].
          destruct (rep_set_color s1 C true gp gk (Node true up uk ul ur) (Node true pp pk sib (Node false p k l r)) false H1)
            as (s2 & E2 & H2 & _ & So2). rewrite E2; cbn -[upd rd rotate_left rotate_right].
          destruct (rotate_left_ok s2 C _ _ _ _ _ _ _ _ _ H2) as (s3 & E3 & H3 & So3).
          rewrite E3; cbn -[upd rd rotate_left rotate_right].
          eapply rebal_step; [exact So1|exact H1|by apply (inorder_plug_eq C)|].
          eapply rebal_step; [exact So2|exact H2|by apply (inorder_plug_eq C)|].
          eapply rebal_step; [exact So3|exact H3|apply (inorder_plug_eq C); cbn; rewrite <- ?app_assoc; cbn; by rewrite <- ?app_assoc|].
          assert (HN : exists N, rbt true N (plug C (Node true pp pk (Node false gp gk (Node true up uk ul ur) sib) (Node false p k l r)))).
          { eapply rbt_plug; [|exact HC2]. econstructor; [|exact Ht]. econstructor; [|done].
            inversion Hu; simplify_eq. econstructor; eauto. }
          destruct HN as [N HN].
          eapply (insert_color_stop fuel s3 C (FR true pp pk (Node false gp gk (Node true up uk ul ur) sib))); eauto; lia. }
      * (* no uncle *)
        cbn -[upd rd rotate_left rotate_right].
        destruct f as [pcol pp pk sib|pcol pp pk sib]; cbn -[upd rd rotate_left rotate_right] in *; subst pcol.
        -- rewrite decide_True by done.
          destruct (rotate_right_ok s (FR true gp gk Leaf :: C) _ _ _ _ _ _ _ _ _ H) as (s0 & E0 & H0 & So0).
          rewrite E0; cbn -[upd rd rotate_left rotate_right].
          destruct (rep_set_color s0 (FR true gp gk Leaf :: C) false p k l (Node false pp pk r sib) true H0)
            as (s1 & E1 & H1 & _ & So1). rewrite E1; cbn -[upd rd rotate_left rotate_right].
          destruct (rep_set_color s1 C true gp gk Leaf (Node true p k l (Node false pp pk r sib)) false H1)
            as (s2 & E2 & H2 & _ & So2). rewrite E2; cbn -[upd rd rotate_left rotate_right].
          destruct (rotate_left_ok s2 C _ _ _ _ _ _ _ _ _ H2) as (s3 & E3 & H3 & So3).
          rewrite E3; cbn -[upd rd rotate_left rotate_right].
          eapply rebal_step; [exact So0|exact H0|apply (inorder_plug_eq C); cbn; rewrite <- ?app_assoc; cbn; by rewrite <- ?app_assoc|].
          eapply rebal_step; [exact So1|exact H1|by apply (inorder_plug_eq C)|].
          eapply rebal_step; [exact So2|exact H2|by apply (inorder_plug_eq C)|].
          eapply rebal_step; [exact So3|exact H3|apply (inorder_plug_eq C); cbn; rewrite <- ?app_assoc; cbn; by rewrite <- ?app_assoc|].
          assert (HN : exists N, rbt true N (plug C (Node true p k (Node false gp gk Leaf l) (Node false pp pk r sib)))).
          { eapply rbt_plug; [|exact HC2]. econstructor; econstructor; eauto.
            inversion Hu; simplify_eq. econstructor; eauto. }
          destruct HN as [N HN].
          eapply (insert_color_stop fuel s3 C (FR true p k (Node false gp gk Leaf l))); eauto; lia.
        -- rewrite decide_False by (intros E; by apply (Hpn _ E)).
          cbn -[upd rd rotate_left rotate_right].
          destruct (rep_set_color s (FR true gp gk Leaf :: C) false pp pk sib (Node false p k l r) true H)
            as (s1 & E1 & H1 & _ & So1). rewrite E1; cbn -[upd rd rotate_left rotate_right].
          destruct (rep_set_color s1 C true gp gk Leaf (Node true pp pk sib (Node false p k l r)) false H1)
            as (s2 & E2 & H2 & _ & So2). rewrite E2; cbn -[upd rd rotate_left rotate_right].
          destruct (rotate_left_ok s2 C _ _ _ _ _ _ _ _ _ H2) as (s3 & E3 & H3 & So3).
          rewrite E3; cbn -[upd rd rotate_left rotate_right].
          eapply rebal_step; [exact So1|exact H1|by apply (inorder_plug_eq C)|].
          eapply rebal_step; [exact So2|exact H2|by apply (inorder_plug_eq C)|].
          eapply rebal_step; [exact So3|exact H3|apply (inorder_plug_eq C); cbn; rewrite <- ?app_assoc; cbn; by rewrite <- ?app_assoc|].
          assert (HN : exists N, rbt true N (plug C (Node true pp pk (Node false gp gk Leaf sib) (Node false p k l r)))).
          { eapply rbt_plug; [|exact HC2]. econstructor; [|exact Ht]. econstructor; [|done].
            inversion Hu; simplify_eq. econstructor; eauto. }
          destruct HN as [N HN].
          eapply (insert_color_stop fuel s3 C (FR true pp pk (Node false gp gk Leaf sib))); eauto; lia.
      * (* red uncle *)
        assert (HU : is_red_opt s (rp (Node false up uk ul ur)) = Some true).
        { cbn -[rd]. replace (plug C (Node true gp gk (Node false up uk ul ur) (fill f (Node false p k l r))))
            with (plug (FL true gp gk (fill f (Node false p k l r)) :: C) (Node false up uk ul ur)) in H by done.
          by rewrite (rep_rd _ _ _ _ _ _ _ H). }
        cbn [rp] in HU |- *. rewrite HU; cbn -[upd rd rotate_left rotate_right].
        destruct (rep_set_color s (FL true gp gk (fill f (Node false p k l r)) :: C) false up uk ul ur true H)
          as (s1 & E1 & H1 & _ & So1). rewrite E1; cbn -[upd rd rotate_left rotate_right].
        assert (HH : exists s2, upd s1 (fp f) (w_blk true) = Some s2 /\
           exists pl pr ppk, rep s2 (plug (FR true gp gk (Node true up uk ul ur) :: C) (Node true (fp f) ppk pl pr))
             /\ rbt true (S n) (Node true (fp f) ppk pl pr)
             /\ inorder (Node true (fp f) ppk pl pr) = inorder (fill f (Node false p k l r))
             /\ same_out s1 s2 (plug (FL true gp gk (fill f (Node false p k l r)) :: C) (Node true up uk ul ur))).
        { destruct f as [pcol pp pk sib|pcol pp pk sib]; cbn in *; subst pcol.
          - destruct (rep_set_color s1 (FR true gp gk (Node true up uk ul ur) :: C) false pp pk (Node false p k l r) sib true H1)
              as (s2 & E2 & H2 & _ & So2).
            exists s2. split; [done|]. exists (Node false p k l r), sib, pk. split_and!; try done.
            econstructor; eauto.
          - destruct (rep_set_color s1 (FR true gp gk (Node true up uk ul ur) :: C) false pp pk sib (Node false p k l r) true H1)
              as (s2 & E2 & H2 & _ & So2).
            exists s2. split; [done|]. exists sib, (Node false p k l r), pk. split_and!; try done.
            econstructor; eauto. }
        destruct HH as (s2 & E2 & pl & pr & ppk & H2 & Hrb2 & Ein2 & So2).
        rewrite E2; cbn -[upd rd rotate_left rotate_right].
        destruct (rep_set_color s2 C true gp gk _ _ false H2) as (s3 & E3 & H3 & _ & So3).
        rewrite E3; cbn -[upd rd rotate_left rotate_right].
        eapply rebal_step; [exact So1|exact H1|by apply (inorder_plug_eq C)|].
        eapply rebal_step; [exact So2|exact H2|apply (inorder_plug_eq C); cbn in *; by rewrite Ein2|].
        eapply rebal_step; [exact So3|exact H3|by apply (inorder_plug_eq C)|].
        eapply IH; [exact H3| |exact HC2|lia].
        inversion Hu; simplify_eq.
        econstructor; [|done]. econstructor; eauto.
Qed.
End rb_insert.
