(** Where summaries may be wrong after a removal: only on the path that rb_augment_erase_end
    walks.  The proof follows RbErase. *)
From Verif Require Import RbModel RbZip RbRot RbInsert RbErase RbAugModel RbAugIns.

Section rb_aug_erase.
Context {K V : Type} (F : K -> option V -> option V -> V) (sm : positive -> V) (n0 : positive).
Implicit Types (s : rbs K) (t : tree K) (C : ctx K).
Notation allc := (allc F sm).
Notation inner := (inner F sm).
Notation sibs := (sibs F sm).

(** all wrong summaries are at n0, its ancestors and their other children *)
Inductive offe : tree K -> Prop :=
| offe_here c k l r : allc l -> allc r -> offe (Node c n0 k l r)
| offe_l c p k l r : offe l -> inner r -> offe (Node c p k l r)
| offe_r c p k l r : inner l -> offe r -> offe (Node c p k l r).
(** the subtree below [p] which has lost a node: n0 is in it, or it is empty and [p] is n0 *)
Definition low p t : Prop := offe t \/ (p = n0 /\ t = Leaf).
Definition lowc C t : Prop := match C with [] => offe t | f :: _ => low (fp f) t end.

Lemma offe_color c c' p k l r : offe (Node c p k l r) -> offe (Node c' p k l r).
Proof. intros H. inversion H; subst; by constructor. Qed.
Lemma allc_in t : allc t -> inner t.
Proof. destruct t; cbn; tauto. Qed.
Lemma low_l c p k t x : low p t -> allc x -> offe (Node c p k t x).
Proof. intros [H|[-> ->]] Hx; [apply offe_l; [done|by apply allc_in]|by apply offe_here]. Qed.
Lemma low_r c p k t x : low p t -> allc x -> offe (Node c p k x t).
Proof. intros [H|[-> ->]] Hx; [apply offe_r; [by apply allc_in|done]|by apply offe_here]. Qed.
Lemma offe_plug C t : offe t -> sibs C -> offe (plug C t).
Proof.
  revert t. induction C as [|f C IH]; intros t Ht HC; cbn in *; [done|]. destruct HC as [H1 H2]. apply IH; [|done].
  destruct f; cbn in *; constructor; by (done || apply allc_in).
Qed.
Lemma lowc_plug C t : lowc C t -> sibs C -> offe (plug C t).
Proof.
  destruct C as [|f C]; cbn; [done|]. intros Ht [H1 H2]. apply (offe_plug C (fill f t)); [|done].
  destruct f; cbn in *; [by apply low_l|by apply low_r].
Qed.
Lemma offe_lowc C t : offe t -> lowc C t.
Proof. destruct C; [done|]. by left. Qed.
Lemma lowc_color C c c' p k l r : lowc C (Node c p k l r) -> lowc C (Node c' p k l r).
Proof. destruct C; cbn; [apply offe_color|]. intros [H|[_ [=]]]. left. by eapply offe_color. Qed.

Definition rebalE s t0 (r : option (rbs K)) : Prop :=
  exists s' t', r = Some s' /\ rep s' t' /\ inorder t' = inorder t0
     /\ (exists N, rbt true N t') /\ offe t' /\ same_out s s' t0.
Lemma rebalE_step s s1 t0 t1 r :
  same_out s s1 t0 -> rep s1 t1 -> inorder t1 = inorder t0 -> rebalE s1 t1 r -> rebalE s t0 r.
Proof.
  intros So _ E (s' & t' & -> & Hrep & Ein & Hrb & HO & So').
  exists s', t'. split_and!; try done; [congruence|].
  eapply same_out_trans; [done|done|]. by apply inorder_ids.
Qed.
Lemma rebalE_end s t N : rep s t -> rbt true N t -> offe t -> rebalE s t (erase_color_end s (root s)).
Proof.
  intros H HN HO. destruct t as [|c p k l r].
  - inversion HO.
  - destruct (rep_set_color s [] c p k l r true H) as (s' & E & Hr & _ & So).
    destruct H as (Hroot & _). cbn in Hroot. rewrite Hroot; cbn -[upd].
    exists s', (Node true p k l r). inversion HN; simplify_eq. split_and!; eauto.
Qed.
Lemma erase_color_redE fuel s C p k l r N pa :
  rep s (plug C (Node false p k l r)) -> rbt true N (plug C (Node true p k l r)) ->
  lowc C (Node false p k l r) -> sibs C ->
  rebalE s (plug C (Node false p k l r)) (erase_color (S fuel) s (Some p) pa).
Proof.
  intros H HN HL HS. cbn -[upd rd]. rewrite (rep_rd _ _ _ _ _ _ _ H). cbn -[upd rd].
  destruct (rep_set_color s C false p k l r true H) as (s' & E & Hr & _ & So).
  exists s', (plug C (Node true p k l r)). split_and!; eauto.
  - by apply inorder_plug_eq.
  - apply lowc_plug; [|done]. by eapply lowc_color.
Qed.

Definition rec_okE (c : bool) (rec : rbs K -> option positive -> option positive -> option (rbs K)) C : Prop :=
  (forall s p k l r N, rep s (plug C (Node false p k l r)) -> rbt true N (plug C (Node true p k l r)) ->
     lowc C (Node false p k l r) -> sibs C ->
     rebalE s (plug C (Node false p k l r)) (rec s (Some p) (pc C))) /\
  (c = true -> forall s p k l r n, rep s (plug C (Node true p k l r)) -> rbt true n (Node true p k l r) -> rbc true (S n) C ->
     lowc C (Node true p k l r) -> sibs C ->
     rebalE s (plug C (Node true p k l r)) (rec s (Some p) (pc C))).

Ltac cb := cbn -[upd rd rotate_left rotate_right is_blk_opt erase_color_end erase_color erase_tail_l erase_tail_r].
Ltac run E := rewrite E; cb.
Ltac ino C := apply (inorder_plug_eq C); cbn; rewrite <- ?app_assoc; cbn; rewrite <- ?app_assoc; done.

Ltac ac := cbn in *; tauto.
Ltac off :=
  cbn in *; destruct_and?;
  first [ apply low_l; [assumption|ac] | apply low_r; [assumption|ac]
        | apply offe_l; [off|ac] | apply offe_r; [ac|off] ].
Lemma erase_tail_lE rec s C c p k t o ok ol orr n :
  rep s (plug C (Node c p k t (Node true o ok ol orr))) ->
  rbt true n t -> rbt true (S n) (Node true o ok ol orr) ->
  (if c then rbc true (S (S n)) C else rbc false (S n) C) ->
  rec_okE c rec C -> low p t -> allc (Node true o ok ol orr) -> sibs C ->
  rebalE s (plug C (Node c p k t (Node true o ok ol orr))) (erase_tail_l rec s p o).
Proof.
  intros H Ht Ho HC [Rec1 Rec2] HL HA HS. inversion Ho as [| |? cl cr ? ? ? ? Hol Hor]; simplify_eq.
  pose proof (H : rep s (plug (FR c p k t :: C) (Node true o ok ol orr))) as HR.
  unfold erase_tail_l. rewrite (rep_rd _ _ _ _ _ _ _ HR). cbn -[upd rd rotate_left rotate_right is_blk_opt erase_color_end].
  destruct (is_blk_rep _ _ _ _ _ _ _ ol HR (or_introl eq_refl)) as (lb & Elb & Hlb1 & Hlb2).
  destruct (is_blk_rep _ _ _ _ _ _ _ orr HR (or_intror eq_refl)) as (rb & Erb & Hrb1 & Hrb2).
  run Elb.
  destruct lb, rb; rewrite ?Erb; cbn -[upd rd rotate_left rotate_right is_blk_opt erase_color_end].
  - (* both black: paint the sibling red, go up *)
    destruct (rep_set_color _ _ _ _ _ _ _ false HR) as (s1 & E1 & H1 & _ & So1). run E1.
    pose proof (H1 : rep s1 (plug C (Node c p k t (Node false o ok ol orr)))) as H1'.
    rewrite (rep_rd _ _ _ _ _ _ _ H1'). cbn -[upd rd].
    eapply rebalE_step; [exact So1|exact H1|ino C|].
    specialize (Hlb1 eq_refl _ _ Hol). specialize (Hrb1 eq_refl _ _ Hor). subst cl cr.
    destruct c.
    + eapply (Rec2 eq_refl); [exact H1'| |exact HC|apply offe_lowc; off|exact HS]. econstructor; [done|]. econstructor; done.
    + assert (HN : exists N, rbt true N (plug C (Node true p k t (Node false o ok ol orr)))).
      { eapply rbt_plug; [|eapply rbc_weaken; exact HC]. econstructor; [done|]. econstructor; done. }
      destruct HN as [N HN]. eapply Rec1; [exact H1'|exact HN|apply offe_lowc; off|exact HS].
  - (* right nephew red *)
    destruct (Hrb2 eq_refl) as (q & kk & tl & tr & ->). cbn [rp]; cb.
    pose proof (rep_rd _ _ _ _ _ _ _ H) as E0. run E0.
    destruct (rep_set_color _ _ _ _ _ _ _ c HR) as (s1 & E1 & H1 & _ & So1). run E1.
    pose proof (H1 : rep s1 (plug C (Node c p k t (Node c o ok ol (Node false q kk tl tr))))) as H1'.
    destruct (rep_set_color _ _ _ _ _ _ _ true H1') as (s2 & E2 & H2 & _ & So2). run E2.
    pose proof (H2 : rep s2 (plug (FR true p k t :: C) (Node c o ok ol (Node false q kk tl tr)))) as H2'.
    pose proof (rep_rd _ _ _ _ _ _ _ H2') as E0'. run E0'.
    pose proof (H2 : rep s2 (plug (FR c o ok ol :: FR true p k t :: C) (Node false q kk tl tr))) as H2''.
    destruct (rep_set_color _ _ _ _ _ _ _ true H2'') as (s3 & E3 & H3 & _ & So3). run E3.
    pose proof (H3 : rep s3 (plug C (Node true p k t (Node c o ok ol (Node true q kk tl tr))))) as H3'.
    destruct (rotate_left_ok _ _ _ _ _ _ _ _ _ _ _ H3') as (s4 & E4 & H4 & So4). run E4.
    eapply rebalE_step; [exact So1|exact H1|ino C|].
    eapply rebalE_step; [exact So2|exact H2|ino C|].
    eapply rebalE_step; [exact So3|exact H3|ino C|].
    eapply rebalE_step; [exact So4|exact H4|ino C|].
    assert (HN : exists N, rbt true N (plug C (Node c o ok (Node true p k t ol) (Node true q kk tl tr)))).
    { inversion Hor; simplify_eq. destruct c; eapply rbt_plug; try exact HC; repeat (econstructor; eauto). }
    destruct HN as [N HN]. eapply rebalE_end; [exact H4|exact HN|apply offe_plug; [off|done]].
  - (* left nephew red, right one black: double rotation *)
    destruct (Hlb2 eq_refl) as (q & kk & tl & tr & ->). cbn [rp]; cb.
    specialize (Hrb1 eq_refl _ _ Hor). subst cr.
    pose proof (H : rep s (plug (FL true o ok orr :: FR c p k t :: C) (Node false q kk tl tr))) as HQ.
    destruct (rep_set_color _ _ _ _ _ _ _ true HQ) as (s1 & E1 & H1 & _ & So1). run E1.
    pose proof (H1 : rep s1 (plug (FR c p k t :: C) (Node true o ok (Node true q kk tl tr) orr))) as H1'.
    destruct (rep_set_color _ _ _ _ _ _ _ false H1') as (s2 & E2 & H2 & _ & So2). run E2.
    destruct (rotate_right_ok _ _ _ _ _ _ _ _ _ _ _ H2) as (s3 & E3 & H3 & So3). run E3.
    pose proof (H3 : rep s3 (plug C (Node c p k t (Node true q kk tl (Node false o ok tr orr))))) as H3'.
    pose proof (rep_rd _ _ _ _ _ _ _ H3') as E3'. run E3'. run E3'.
    destruct (rep_set_color _ _ _ _ _ _ _ c H3) as (s4 & E4 & H4 & _ & So4). run E4.
    pose proof (H4 : rep s4 (plug C (Node c p k t (Node c q kk tl (Node false o ok tr orr))))) as H4'.
    destruct (rep_set_color _ _ _ _ _ _ _ true H4') as (s5 & E5 & H5 & _ & So5). run E5.
    pose proof (H5 : rep s5 (plug (FR true p k t :: C) (Node c q kk tl (Node false o ok tr orr)))) as H5'.
    pose proof (rep_rd _ _ _ _ _ _ _ H5') as E5'. run E5'.
    pose proof (H5 : rep s5 (plug (FR c q kk tl :: FR true p k t :: C) (Node false o ok tr orr))) as H5''.
    destruct (rep_set_color _ _ _ _ _ _ _ true H5'') as (s6 & E6 & H6 & _ & So6). run E6.
    pose proof (H6 : rep s6 (plug C (Node true p k t (Node c q kk tl (Node true o ok tr orr))))) as H6'.
    destruct (rotate_left_ok _ _ _ _ _ _ _ _ _ _ _ H6') as (s7 & E7 & H7 & So7). run E7.
    eapply rebalE_step; [exact So1|exact H1|ino C|].
    eapply rebalE_step; [exact So2|exact H2|ino C|].
    eapply rebalE_step; [exact So3|exact H3|ino C|].
    eapply rebalE_step; [exact So4|exact H4|ino C|].
    eapply rebalE_step; [exact So5|exact H5|ino C|].
    eapply rebalE_step; [exact So6|exact H6|ino C|].
    eapply rebalE_step; [exact So7|exact H7|ino C|].
    assert (HN : exists N, rbt true N (plug C (Node c q kk (Node true p k t tl) (Node true o ok tr orr)))).
    { inversion Hol; simplify_eq. destruct c; eapply rbt_plug; try exact HC; repeat (econstructor; eauto). }
    destruct HN as [N HN]. eapply rebalE_end; [exact H7|exact HN|apply offe_plug; [off|done]].
  - (* both nephews red: single rotation *)
    destruct (Hrb2 eq_refl) as (q & kk & tl & tr & ->). cbn [rp]; cb.
    pose proof (rep_rd _ _ _ _ _ _ _ H) as E0. run E0.
    destruct (rep_set_color _ _ _ _ _ _ _ c HR) as (s1 & E1 & H1 & _ & So1). run E1.
    pose proof (H1 : rep s1 (plug C (Node c p k t (Node c o ok ol (Node false q kk tl tr))))) as H1'.
    destruct (rep_set_color _ _ _ _ _ _ _ true H1') as (s2 & E2 & H2 & _ & So2). run E2.
    pose proof (H2 : rep s2 (plug (FR true p k t :: C) (Node c o ok ol (Node false q kk tl tr)))) as H2'.
    pose proof (rep_rd _ _ _ _ _ _ _ H2') as E0'. run E0'.
    pose proof (H2 : rep s2 (plug (FR c o ok ol :: FR true p k t :: C) (Node false q kk tl tr))) as H2''.
    destruct (rep_set_color _ _ _ _ _ _ _ true H2'') as (s3 & E3 & H3 & _ & So3). run E3.
    pose proof (H3 : rep s3 (plug C (Node true p k t (Node c o ok ol (Node true q kk tl tr))))) as H3'.
    destruct (rotate_left_ok _ _ _ _ _ _ _ _ _ _ _ H3') as (s4 & E4 & H4 & So4). run E4.
    eapply rebalE_step; [exact So1|exact H1|ino C|].
    eapply rebalE_step; [exact So2|exact H2|ino C|].
    eapply rebalE_step; [exact So3|exact H3|ino C|].
    eapply rebalE_step; [exact So4|exact H4|ino C|].
    assert (HN : exists N, rbt true N (plug C (Node c o ok (Node true p k t ol) (Node true q kk tl tr)))).
    { inversion Hor; simplify_eq. destruct c; eapply rbt_plug; try exact HC; repeat (econstructor; eauto). }
    destruct HN as [N HN]. eapply rebalE_end; [exact H4|exact HN|apply offe_plug; [off|done]].
Qed.

Lemma erase_tail_rE rec s C c p k t o ok ol orr n :
  rep s (plug C (Node c p k (Node true o ok ol orr) t)) ->
  rbt true n t -> rbt true (S n) (Node true o ok ol orr) ->
  (if c then rbc true (S (S n)) C else rbc false (S n) C) ->
  rec_okE c rec C -> low p t -> allc (Node true o ok ol orr) -> sibs C ->
  rebalE s (plug C (Node c p k (Node true o ok ol orr) t)) (erase_tail_r rec s p o).
Proof.
  intros H Ht Ho HC [Rec1 Rec2] HL HA HS. inversion Ho as [| |? cl cr ? ? ? ? Hol Hor]; simplify_eq.
  pose proof (H : rep s (plug (FL c p k t :: C) (Node true o ok ol orr))) as HR.
  unfold erase_tail_r. rewrite (rep_rd _ _ _ _ _ _ _ HR). cbn -[upd rd rotate_left rotate_right is_blk_opt erase_color_end].
  destruct (is_blk_rep _ _ _ _ _ _ _ ol HR (or_introl eq_refl)) as (lb & Elb & Hlb1 & Hlb2).
  destruct (is_blk_rep _ _ _ _ _ _ _ orr HR (or_intror eq_refl)) as (rb & Erb & Hrb1 & Hrb2).
  run Elb.
  destruct lb, rb; rewrite ?Erb; cbn -[upd rd rotate_left rotate_right is_blk_opt erase_color_end].
  - (* both black: paint the sibling red, go up *)
    destruct (rep_set_color _ _ _ _ _ _ _ false HR) as (s1 & E1 & H1 & _ & So1). run E1.
    pose proof (H1 : rep s1 (plug C (Node c p k (Node false o ok ol orr) t))) as H1'.
    rewrite (rep_rd _ _ _ _ _ _ _ H1'). cbn -[upd rd].
    eapply rebalE_step; [exact So1|exact H1|ino C|].
    specialize (Hlb1 eq_refl _ _ Hol). specialize (Hrb1 eq_refl _ _ Hor). subst cl cr.
    destruct c.
    + eapply (Rec2 eq_refl); [exact H1'| |exact HC|apply offe_lowc; off|exact HS]. econstructor; [|done]. econstructor; done.
    + assert (HN : exists N, rbt true N (plug C (Node true p k (Node false o ok ol orr) t))).
      { eapply rbt_plug; [|eapply rbc_weaken; exact HC]. econstructor; [|done]. econstructor; done. }
      destruct HN as [N HN]. eapply Rec1; [exact H1'|exact HN|apply offe_lowc; off|exact HS].
  - (* right nephew red, left one black: double rotation *)
    rewrite ?Elb. cbn -[upd rd rotate_left rotate_right is_blk_opt erase_color_end].
    destruct (Hrb2 eq_refl) as (q & kk & tl & tr & ->). cbn [rp]; cb.
    specialize (Hlb1 eq_refl _ _ Hol). subst cl.
    pose proof (H : rep s (plug (FR true o ok ol :: FL c p k t :: C) (Node false q kk tl tr))) as HQ.
    destruct (rep_set_color _ _ _ _ _ _ _ true HQ) as (s1 & E1 & H1 & _ & So1). run E1.
    pose proof (H1 : rep s1 (plug (FL c p k t :: C) (Node true o ok ol (Node true q kk tl tr)))) as H1'.
    destruct (rep_set_color _ _ _ _ _ _ _ false H1') as (s2 & E2 & H2 & _ & So2). run E2.
    destruct (rotate_left_ok _ _ _ _ _ _ _ _ _ _ _ H2) as (s3 & E3 & H3 & So3). run E3.
    pose proof (H3 : rep s3 (plug C (Node c p k (Node true q kk (Node false o ok ol tl) tr) t))) as H3'.
    pose proof (rep_rd _ _ _ _ _ _ _ H3') as E3'. run E3'. run E3'.
    destruct (rep_set_color _ _ _ _ _ _ _ c H3) as (s4 & E4 & H4 & _ & So4). run E4.
    pose proof (H4 : rep s4 (plug C (Node c p k (Node c q kk (Node false o ok ol tl) tr) t))) as H4'.
    destruct (rep_set_color _ _ _ _ _ _ _ true H4') as (s5 & E5 & H5 & _ & So5). run E5.
    pose proof (H5 : rep s5 (plug (FL true p k t :: C) (Node c q kk (Node false o ok ol tl) tr))) as H5'.
    pose proof (rep_rd _ _ _ _ _ _ _ H5') as E5'. run E5'.
    pose proof (H5 : rep s5 (plug (FL c q kk tr :: FL true p k t :: C) (Node false o ok ol tl))) as H5''.
    destruct (rep_set_color _ _ _ _ _ _ _ true H5'') as (s6 & E6 & H6 & _ & So6). run E6.
    pose proof (H6 : rep s6 (plug C (Node true p k (Node c q kk (Node true o ok ol tl) tr) t))) as H6'.
    destruct (rotate_right_ok _ _ _ _ _ _ _ _ _ _ _ H6') as (s7 & E7 & H7 & So7). run E7.
    eapply rebalE_step; [exact So1|exact H1|ino C|].
    eapply rebalE_step; [exact So2|exact H2|ino C|].
    eapply rebalE_step; [exact So3|exact H3|ino C|].
    eapply rebalE_step; [exact So4|exact H4|ino C|].
    eapply rebalE_step; [exact So5|exact H5|ino C|].
    eapply rebalE_step; [exact So6|exact H6|ino C|].
    eapply rebalE_step; [exact So7|exact H7|ino C|].
    assert (HN : exists N, rbt true N (plug C (Node c q kk (Node true o ok ol tl) (Node true p k tr t)))).
    { inversion Hor; simplify_eq. destruct c; eapply rbt_plug; try exact HC; repeat (econstructor; eauto). }
    destruct HN as [N HN]. eapply rebalE_end; [exact H7|exact HN|apply offe_plug; [off|done]].
  - (* left nephew red *)
    rewrite ?Elb. cbn -[upd rd rotate_left rotate_right is_blk_opt erase_color_end].
    destruct (Hlb2 eq_refl) as (q & kk & tl & tr & ->). cbn [rp]; cb.
    pose proof (rep_rd _ _ _ _ _ _ _ H) as E0. run E0.
    destruct (rep_set_color _ _ _ _ _ _ _ c HR) as (s1 & E1 & H1 & _ & So1). run E1.
    pose proof (H1 : rep s1 (plug C (Node c p k (Node c o ok (Node false q kk tl tr) orr) t))) as H1'.
    destruct (rep_set_color _ _ _ _ _ _ _ true H1') as (s2 & E2 & H2 & _ & So2). run E2.
    pose proof (H2 : rep s2 (plug (FL true p k t :: C) (Node c o ok (Node false q kk tl tr) orr))) as H2'.
    pose proof (rep_rd _ _ _ _ _ _ _ H2') as E0'. run E0'.
    pose proof (H2 : rep s2 (plug (FL c o ok orr :: FL true p k t :: C) (Node false q kk tl tr))) as H2''.
    destruct (rep_set_color _ _ _ _ _ _ _ true H2'') as (s3 & E3 & H3 & _ & So3). run E3.
    pose proof (H3 : rep s3 (plug C (Node true p k (Node c o ok (Node true q kk tl tr) orr) t))) as H3'.
    destruct (rotate_right_ok _ _ _ _ _ _ _ _ _ _ _ H3') as (s4 & E4 & H4 & So4). run E4.
    eapply rebalE_step; [exact So1|exact H1|ino C|].
    eapply rebalE_step; [exact So2|exact H2|ino C|].
    eapply rebalE_step; [exact So3|exact H3|ino C|].
    eapply rebalE_step; [exact So4|exact H4|ino C|].
    assert (HN : exists N, rbt true N (plug C (Node c o ok (Node true q kk tl tr) (Node true p k orr t)))).
    { inversion Hol; simplify_eq. destruct c; eapply rbt_plug; try exact HC; repeat (econstructor; eauto). }
    destruct HN as [N HN]. eapply rebalE_end; [exact H4|exact HN|apply offe_plug; [off|done]].
  - rewrite ?Elb. cbn -[upd rd rotate_left rotate_right is_blk_opt erase_color_end].
    destruct (Hlb2 eq_refl) as (q & kk & tl & tr & ->). cbn [rp]; cb.
    pose proof (rep_rd _ _ _ _ _ _ _ H) as E0. run E0.
    destruct (rep_set_color _ _ _ _ _ _ _ c HR) as (s1 & E1 & H1 & _ & So1). run E1.
    pose proof (H1 : rep s1 (plug C (Node c p k (Node c o ok (Node false q kk tl tr) orr) t))) as H1'.
    destruct (rep_set_color _ _ _ _ _ _ _ true H1') as (s2 & E2 & H2 & _ & So2). run E2.
    pose proof (H2 : rep s2 (plug (FL true p k t :: C) (Node c o ok (Node false q kk tl tr) orr))) as H2'.
    pose proof (rep_rd _ _ _ _ _ _ _ H2') as E0'. run E0'.
    pose proof (H2 : rep s2 (plug (FL c o ok orr :: FL true p k t :: C) (Node false q kk tl tr))) as H2''.
    destruct (rep_set_color _ _ _ _ _ _ _ true H2'') as (s3 & E3 & H3 & _ & So3). run E3.
    pose proof (H3 : rep s3 (plug C (Node true p k (Node c o ok (Node true q kk tl tr) orr) t))) as H3'.
    destruct (rotate_right_ok _ _ _ _ _ _ _ _ _ _ _ H3') as (s4 & E4 & H4 & So4). run E4.
    eapply rebalE_step; [exact So1|exact H1|ino C|].
    eapply rebalE_step; [exact So2|exact H2|ino C|].
    eapply rebalE_step; [exact So3|exact H3|ino C|].
    eapply rebalE_step; [exact So4|exact H4|ino C|].
    assert (HN : exists N, rbt true N (plug C (Node c o ok (Node true q kk tl tr) (Node true p k orr t)))).
    { inversion Hol; simplify_eq. destruct c; eapply rbt_plug; try exact HC; repeat (econstructor; eauto). }
    destruct HN as [N HN]. eapply rebalE_end; [exact H4|exact HN|apply offe_plug; [off|done]].
Qed.

Lemma red_sib_lE fuel s C c pp pk t sop ok ol orr n :
  rep s (plug C (Node c pp pk t (Node false sop ok ol orr))) -> rbt true n t ->
  rbt true (S n) ol -> rbt true (S n) orr -> rbc true (S (S n)) C -> fuel <> 0 ->
  low pp t -> allc (Node false sop ok ol orr) -> sibs C ->
  rebalE s (plug C (Node c pp pk t (Node false sop ok ol orr)))
    ('(s, o) ← (s ← upd s sop (w_blk true); s ← upd s pp (w_blk false);
                s ← rotate_left s pp; pn ← rd s pp; o ← rgt pn; Some (s, o));
     erase_tail_l (erase_color fuel) s pp o).
Proof.
  intros H Ht Hol Hor HC Hf HL HA HS.
  pose proof (H : rep s (plug (FR c pp pk t :: C) (Node false sop ok ol orr))) as HR.
  destruct (rep_set_color _ _ _ _ _ _ _ true HR) as (s1 & E1 & H1 & _ & So1). run E1.
  pose proof (H1 : rep s1 (plug C (Node c pp pk t (Node true sop ok ol orr)))) as H1'.
  destruct (rep_set_color _ _ _ _ _ _ _ false H1') as (s2 & E2 & H2 & _ & So2). run E2.
  destruct (rotate_left_ok _ _ _ _ _ _ _ _ _ _ _ H2) as (s3 & E3 & H3 & So3). run E3.
  pose proof (H3 : rep s3 (plug (FL true sop ok orr :: C) (Node false pp pk t ol))) as H3'.
  rewrite (rep_rd _ _ _ _ _ _ _ H3'). cb.
  inversion Hol as [| |? cl cr lp lk ll lr Hll Hlr]; simplify_eq. cb.
  eapply rebalE_step; [exact So1|exact H1|ino C|].
  eapply rebalE_step; [exact So2|exact H2|ino C|].
  eapply rebalE_step; [exact So3|exact H3|ino C|].
  eapply (erase_tail_lE _ s3 (FL true sop ok orr :: C)); [exact H3'|exact Ht|exact Hol| | |exact HL|ac|ac].
  - eapply rbc_blk; eauto.
  - split; [|done]. intros. destruct fuel as [|fuel']; [lia|]. eapply erase_color_redE; eauto.
Qed.

Lemma red_sib_rE fuel s C c pp pk t sop ok ol orr n :
  rep s (plug C (Node c pp pk (Node false sop ok ol orr) t)) -> rbt true n t ->
  rbt true (S n) ol -> rbt true (S n) orr -> rbc true (S (S n)) C -> fuel <> 0 ->
  low pp t -> allc (Node false sop ok ol orr) -> sibs C ->
  rebalE s (plug C (Node c pp pk (Node false sop ok ol orr) t))
    ('(s, o) ← (s ← upd s sop (w_blk true); s ← upd s pp (w_blk false);
                s ← rotate_right s pp; pn ← rd s pp; o ← lft pn; Some (s, o));
     erase_tail_r (erase_color fuel) s pp o).
Proof.
  intros H Ht Hol Hor HC Hf HL HA HS.
  pose proof (H : rep s (plug (FL c pp pk t :: C) (Node false sop ok ol orr))) as HR.
  destruct (rep_set_color _ _ _ _ _ _ _ true HR) as (s1 & E1 & H1 & _ & So1). run E1.
  pose proof (H1 : rep s1 (plug C (Node c pp pk (Node true sop ok ol orr) t))) as H1'.
  destruct (rep_set_color _ _ _ _ _ _ _ false H1') as (s2 & E2 & H2 & _ & So2). run E2.
  destruct (rotate_right_ok _ _ _ _ _ _ _ _ _ _ _ H2) as (s3 & E3 & H3 & So3). run E3.
  pose proof (H3 : rep s3 (plug (FR true sop ok ol :: C) (Node false pp pk orr t))) as H3'.
  rewrite (rep_rd _ _ _ _ _ _ _ H3'). cb.
  inversion Hor as [| |? cl cr lp lk ll lr Hll Hlr]; simplify_eq. cb.
  eapply rebalE_step; [exact So1|exact H1|ino C|].
  eapply rebalE_step; [exact So2|exact H2|ino C|].
  eapply rebalE_step; [exact So3|exact H3|ino C|].
  eapply (erase_tail_rE _ s3 (FR true sop ok ol :: C)); [exact H3'|exact Ht|exact Hor| | |exact HL|ac|ac].
  - eapply rbc_blk; eauto.
  - split; [|done]. intros. destruct fuel as [|fuel']; [lia|]. eapply erase_color_redE; eauto.
Qed.

Lemma erase_colorE fuel s C c t n :
  rep s (plug C t) -> rbt c n t -> rbc true (S n) C ->
  length C + 2 <= fuel -> lowc C t -> sibs C ->
  rebalE s (plug C t) (erase_color fuel s (rp t) (pc C)).
Proof.
  revert s C c t n; induction fuel as [|fuel IH]; intros s C c t n H Ht HCC Hf HL HS; [lia|].
  destruct c.
  2: { inversion Ht; simplify_eq. 
       assert (HN : exists N, rbt true N (plug C (Node true p k l r))).
       { eapply rbt_plug; [|exact HCC]. econstructor; eauto. }
       destruct HN as [N HN]. eapply erase_color_redE; eauto. }
  assert (Hb : is_blk_opt s (rp t) = Some true).
  { inversion Ht; simplify_eq; [done|]. cbn -[rd]. by rewrite (rep_rd _ _ _ _ _ _ _ H). }
  cbn [erase_color]. rewrite Hb. cb.
  destruct C as [|f C].
  { (* at the root *)
    rewrite bool_decide_eq_false_2. 2: { intros E. apply E. symmetry. apply H. }
    cb. replace (rp t) with (root s) by apply H. eapply rebalE_end; [exact H|eauto|exact HL]. }
  rewrite bool_decide_eq_true_2.
  2: { destruct H as (-> & _ & ND). by apply rp_plug_ne. }
  cb.
  assert (Hp : rd s (fp f) = Some (fnode f (pc C) (rp t))).
  { apply (proj1 (rep_plug s (f::C) _)) in H. destruct H as (_ & HH & _). cbn in HH. unfold rd; naive_solver. }
  rewrite Hp; cb.
  cbn [length] in Hf.
  assert (Hrec : rec_okE (fc f) (erase_color fuel) C).
  { split.
    - intros. destruct fuel as [|fuel']; [lia|]. eapply erase_color_redE; eauto.
    - intros _ s' p' k' l' r' n' H1 H2 H3 H4 H5. apply (IH s' C true (Node true p' k' l' r') n'); eauto; lia. }
  assert (Hside : forall c p k l, f = FR c p k l -> rp l <> rp t).
  { intros cc p k l ->. clear -H HCC. apply (proj1 (rep_plug s (_::C) _)) in H. destruct H as (_ & _ & ND).
    cbn in ND. intros E. destruct l as [|? q ? ? ?].
    - inversion HCC as [|? ? ? ? ? ? Hs ?|? ? ? ? Hs ?]; simplify_eq; cbn in Hs; inversion Hs.
    - cbn in E. symmetry in E. apply rp_elem in E. apply NoDup_app in ND as (_ & ND & _).
      apply (ND _ E). cbn. set_solver. }
  assert (Hfuel0 : fuel <> 0) by lia.
  inversion HCC as [|c0 c' n' f' C' Hfc Hsib HC2|n' f' C' Hfc Hsib HC2]; simplify_eq.
  - (* black parent *)
    destruct f as [pcol pp pk sib|pcol pp pk sib]; cbn in Hfc, Hsib; subst pcol; cbn [fnode fp lft rgt plug fill] in *.
    + rewrite decide_True by done.
      inversion Hsib as [|? sop ok ol orr Hol Hor|? cl cr sop ok ol orr Hol Hor]; simplify_eq.
      * pose proof (H : rep s (plug (FR true pp pk t :: C) (Node false sop ok ol orr))) as HR.
        cbn [rp]. cb. rewrite (rep_rd _ _ _ _ _ _ _ HR). cbn [blk negb].
        exact (red_sib_lE _ _ _ _ _ _ _ _ _ _ _ _ H Ht Hol Hor HC2 Hfuel0 HL (proj1 HS) (proj2 HS)).
      * pose proof (H : rep s (plug (FR true pp pk t :: C) (Node true sop ok ol orr))) as HR.
        cbn [rp]. cb. rewrite (rep_rd _ _ _ _ _ _ _ HR). cb.
        eapply erase_tail_lE; [exact H|exact Ht|exact Hsib|exact HC2|exact Hrec|exact HL|exact (proj1 HS)|exact (proj2 HS)].
    + inversion Hsib as [|? sop ok ol orr Hol Hor|? cl cr sop ok ol orr Hol Hor]; simplify_eq.
      * pose proof (H : rep s (plug (FL true pp pk t :: C) (Node false sop ok ol orr))) as HR.
        rewrite decide_False by exact (Hside _ _ _ _ eq_refl).
        cbn [rp]. cb. rewrite (rep_rd _ _ _ _ _ _ _ HR). cbn [blk negb].
        exact (red_sib_rE _ _ _ _ _ _ _ _ _ _ _ _ H Ht Hol Hor HC2 Hfuel0 HL (proj1 HS) (proj2 HS)).
      * pose proof (H : rep s (plug (FL true pp pk t :: C) (Node true sop ok ol orr))) as HR.
        rewrite decide_False by exact (Hside _ _ _ _ eq_refl).
        cbn [rp]. cb. rewrite (rep_rd _ _ _ _ _ _ _ HR). cb.
        eapply erase_tail_rE; [exact H|exact Ht|exact Hsib|exact HC2|exact Hrec|exact HL|exact (proj1 HS)|exact (proj2 HS)].
  - (* red parent *)
    destruct f as [pcol pp pk sib|pcol pp pk sib]; cbn in Hfc, Hsib; subst pcol; cbn [fnode fp lft rgt plug fill] in *.
    + rewrite decide_True by done.
      inversion Hsib as [| |? cl cr sop ok ol orr Hol Hor]; simplify_eq.
      pose proof (H : rep s (plug (FR false pp pk t :: C) (Node true sop ok ol orr))) as HR.
      cbn [rp]. cb. rewrite (rep_rd _ _ _ _ _ _ _ HR). cb.
      eapply erase_tail_lE; [exact H|exact Ht|exact Hsib|exact HC2|exact Hrec|exact HL|exact (proj1 HS)|exact (proj2 HS)].
    + inversion Hsib as [| |? cl cr sop ok ol orr Hol Hor]; simplify_eq.
      pose proof (H : rep s (plug (FL false pp pk t :: C) (Node true sop ok ol orr))) as HR.
      rewrite decide_False by exact (Hside _ _ _ _ eq_refl).
      cbn [rp]. cb. rewrite (rep_rd _ _ _ _ _ _ _ HR). cb.
      eapply erase_tail_rE; [exact H|exact Ht|exact Hsib|exact HC2|exact Hrec|exact HL|exact (proj1 HS)|exact (proj2 HS)].
Qed.
End rb_aug_erase.
