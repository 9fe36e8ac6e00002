(** Where summaries may be wrong after an insertion: only on the path that
    rb_augment_insert walks.  The proof follows RbInsert. *)
From Verif Require Import RbModel RbZip RbRot RbInsert RbAugModel.

Section rb_aug.
Context {K V : Type} (F : K -> option V -> option V -> V) (sm : positive -> V) (n0 : positive).
Implicit Types (s : rbs K) (t : tree K) (C : ctx K).

(** the summary of the root of [t] is right / of all nodes of [t] / of all but the root *)
Definition okroot t : Prop :=
  match t with Leaf => True | Node _ p k l r => sm p = F k (osum sm (rp l)) (osum sm (rp r)) end.
Fixpoint allc t : Prop :=
  match t with Leaf => True | Node _ p k l r => okroot (Node false p k l r) /\ allc l /\ allc r end.
Definition inner t : Prop := match t with Leaf => True | Node _ p k l r => allc l /\ allc r end.

(** all wrong summaries are at n0, its children, its ancestors and their other children *)
Inductive offp : tree K -> Prop :=
| offp_here c k l r : inner l -> inner r -> offp (Node c n0 k l r)
| offp_l c p k l r : offp l -> inner r -> offp (Node c p k l r)
| offp_r c p k l r : inner l -> offp r -> offp (Node c p k l r).
(** before a rotation: at n0, a leaf, and its ancestors *)
Inductive sp : tree K -> Prop :=
| sp_here c k : sp (Node c n0 k Leaf Leaf)
| sp_l c p k l r : sp l -> allc r -> sp (Node c p k l r)
| sp_r c p k l r : allc l -> sp r -> sp (Node c p k l r).
Fixpoint sibs C : Prop := match C with [] => True | f :: C => allc (fsib f) /\ sibs C end.

Lemma allc_inner t : allc t -> inner t.
Proof. destruct t; cbn; tauto. Qed.
Lemma sp_offp t : sp t -> offp t.
Proof.
  induction 1; [apply offp_here; done|apply offp_l; [done|by apply allc_inner]|apply offp_r; [by apply allc_inner|done]].
Qed.
Lemma sp_color c c' p k l r : sp (Node c p k l r) -> sp (Node c' p k l r).
Proof. intros H. inversion H; subst; by constructor. Qed.
Lemma offp_color c c' p k l r : offp (Node c p k l r) -> offp (Node c' p k l r).
Proof. intros H. inversion H; subst; by constructor. Qed.
Lemma offp_blacken t : offp t -> offp (blacken t).
Proof. destruct t; [done|]. apply offp_color. Qed.
Lemma sp_plug C t : sp t -> sibs C -> sp (plug C t).
Proof.
  revert t. induction C as [|f C IH]; intros t Ht HC; cbn in *; [done|]. destruct HC as [H1 H2]. apply IH; [|done].
  destruct f; cbn in *; by constructor.
Qed.
Lemma offp_plug C t : offp t -> sibs C -> offp (plug C t).
Proof.
  revert t. induction C as [|f C IH]; intros t Ht HC; cbn in *; [done|]. destruct HC as [H1 H2]. apply IH; [|done].
  destruct f; cbn in *; constructor; by (done || apply allc_inner).
Qed.
Lemma inner_mk c p k l r : allc l -> allc r -> inner (Node c p k l r).
Proof. done. Qed.

Ltac rot :=
  cbn in *; destruct_and?;
  lazymatch goal with
  | |- offp (plug ?C ?t) => apply (offp_plug C t); [|done]
  end;
  lazymatch goal with
  | HS : sp (Node false ?p ?k ?l ?r) |- _ =>
      first [ apply offp_l; [apply sp_offp; exact HS|by apply inner_mk]
            | apply offp_r; [by apply inner_mk|apply sp_offp; exact HS]
            | inversion HS; subst;
              first [ apply offp_here; by apply inner_mk
                    | apply offp_l; [first [apply offp_l; [by apply sp_offp|by apply allc_inner]
                                           |apply offp_r; [by apply allc_inner|by apply sp_offp]]|by apply inner_mk]
                    | apply offp_r; [by apply inner_mk|first [apply offp_l; [by apply sp_offp|by apply allc_inner]
                                           |apply offp_r; [by apply allc_inner|by apply sp_offp]]] ] ]
  end.


Definition rebalA s t0 (r : option (rbs K)) : Prop :=
  exists s' t', r = Some s' /\ rep s' t' /\ inorder t' = inorder t0
     /\ (exists N, rbt true N t') /\ offp t' /\ same_out s s' t0.

Lemma rebalA_step s s1 t0 t1 r :
  same_out s s1 t0 -> rep s1 t1 -> inorder t1 = inorder t0 -> rebalA s1 t1 r -> rebalA s t0 r.
Proof.
  intros So _ E (s' & t' & -> & Hrep & Ein & Hrb & HO & So').
  exists s', t'. split_and!; try done; [congruence|].
  eapply same_out_trans; [done|done|]. by apply inorder_ids.
Qed.

Lemma insert_colorA_stop fuel s C f c p k l r N :
  rep s (plug (f :: C) (Node c p k l r)) -> fc f = true ->
  rbt true N (plug (f :: C) (Node c p k l r)) -> offp (plug (f :: C) (Node c p k l r)) -> fuel <> O ->
  rebalA s (plug (f :: C) (Node c p k l r)) (insert_color fuel s p).
Proof.
  intros H Hf HN HO Hfuel. destruct fuel as [|fuel]; [done|]. cbn [insert_color].
  rewrite (rep_rd _ _ _ _ _ _ _ H); cbn -[upd rd].
  assert (Hp : rd s (fp f) = Some (fnode f (pc C) (Some p))).
  { apply (proj1 (rep_plug s (f::C) _)) in H. destruct H as (_ & HC & _). cbn in HC. unfold rd; naive_solver. }
  rewrite Hp; cbn -[upd rd].
  assert (Hb : blk (fnode f (pc C) (Some p)) = true) by (destruct f; done).
  rewrite Hb.
  destruct (finish_ok s _ H) as (s' & E & Hr & So).
  { intros E. pose proof (size_plug (f::C) (Node c p k l r)) as HS. rewrite E in HS. cbn in HS. lia. }
  exists s', (blacken (plug (f :: C) (Node c p k l r))).
  split_and!; [exact E|done|apply blacken_inorder| |by apply offp_blacken|done].
  exists N. by erewrite blacken_id.
Qed.

Lemma insert_colorA_ok fuel s C p k l r n :
  rep s (plug C (Node false p k l r)) -> rbt false n (Node false p k l r) -> rbc true n C ->
  length C + 2 <= fuel ->
  sp (Node false p k l r) -> sibs C ->
  rebalA s (plug C (Node false p k l r)) (insert_color fuel s p).
Proof.
  revert s C p k l r n; induction fuel as [|fuel IH]; intros s C p k l r n H Ht HC Hf HS HSC; [lia|].
  inversion HC as [n'|c c' n' f C' Hfc Hsib HC'|n' f C' Hfc Hsib HC']; simplify_eq.
  - (* root *)
    cbn [insert_color]. rewrite (rep_rd _ _ _ _ _ _ _ H); cbn -[upd rd].
    destruct (finish_ok s _ H ltac:(done)) as (s' & E & Hr & So).
    exists s', (Node true p k l r). split_and!; [exact E|done|done| |by apply sp_offp, (sp_color false true)|done].
    destruct (blacken_rbt _ _ _ Ht) as [m Hm]. eauto.
  - (* black parent *)
    destruct (rbt_plug (f :: C') _ _ _ Ht) as [N HN]. { eapply rbc_blk; eauto. }
    eapply insert_colorA_stop; eauto. by apply sp_offp, sp_plug.
  - (* red parent: the grandparent exists and is black *)
    inversion HC' as [n'|c c' n' g C Hgc Hu HC2|]; simplify_eq.
    inversion Ht as [|? ? ? ? ? Hl Hr|]; simplify_eq.
    assert (Hp : rd s (fp f) = Some (fnode f (Some (fp g)) (Some p))).
    { apply (proj1 (rep_plug s (f::g::C) _)) in H. destruct H as (_ & HH & _). cbn in HH. unfold rd; naive_solver. }
    assert (Hg : rd s (fp g) = Some (fnode g (pc C) (Some (fp f)))).
    { apply (proj1 (rep_plug s (f::g::C) _)) in H. destruct H as (_ & HH & _). cbn in HH. unfold rd; naive_solver. }
    assert (Hpn : forall q, rp (fsib f) = Some q -> q <> p).
    { intros q E%rp_elem ->. destruct H as (_ & _ & ND). rewrite ids_plug in ND. cbn in ND.
      rewrite NoDup_cons in ND. set_solver. }
    assert (Hgf : forall q, rp (fsib g) = Some q -> q <> fp f).
    { intros q E%rp_elem ->. destruct H as (_ & _ & ND). rewrite ids_plug in ND. cbn in ND.
      rewrite NoDup_cons, !NoDup_app, NoDup_cons, NoDup_app in ND. set_solver. }
    cbn [insert_color]. rewrite (rep_rd _ _ _ _ _ _ _ H); cbn -[upd rd is_red_opt rotate_left rotate_right].
    rewrite Hp; cbn -[upd rd is_red_opt rotate_left rotate_right].
    replace (blk (fnode f (Some (fp g)) (Some p))) with false by (destruct f; done).
    replace (par (fnode f (Some (fp g)) (Some p))) with (Some (fp g)) by (destruct f; done).
    cbn -[upd rd is_red_opt rotate_left rotate_right].
    rewrite Hg; cbn -[upd rd is_red_opt rotate_left rotate_right].
    destruct g as [gc gp gk ut|gc gp gk ut]; cbn -[upd rd is_red_opt rotate_left rotate_right] in *; subst gc.
    + (* parent is the left child *)
      rewrite decide_True by done.
      destruct ut as [|uc up uk ul ur].
      2: destruct uc.
      2: { (* black uncle *)
        assert (HU : is_red_opt s (rp (Node true up uk ul ur)) = Some false).
        { cbn -[rd]. replace (plug C (Node true gp gk (fill f (Node false p k l r)) (Node true up uk ul ur)))
            with (plug (FR true gp gk (fill f (Node false p k l r)) :: C) (Node true up uk ul ur)) in H by done.
          by rewrite (rep_rd _ _ _ _ _ _ _ H). }
        cbn [rp] in HU |- *. rewrite HU; cbn -[upd rd rotate_left rotate_right].
        destruct f as [pcol pp pk sib|pcol pp pk sib]; cbn -[upd rd rotate_left rotate_right] in *; subst pcol.
        - (* node is left child: single rotation *)
          rewrite decide_False by (intros E; by apply (Hpn _ E)).
          cbn -[upd rd rotate_left rotate_right].
          destruct (rep_set_color s (FL true gp gk (Node true up uk ul ur) :: C) false pp pk (Node false p k l r) sib true H)
            as (s1 & E1 & H1 & _ & So1). rewrite E1; cbn -[upd rd rotate_left rotate_right].
          destruct (rep_set_color s1 C true gp gk (Node true pp pk (Node false p k l r) sib) (Node true up uk ul ur) false H1)
            as (s2 & E2 & H2 & _ & So2). rewrite E2; cbn -[upd rd rotate_left rotate_right].
          destruct (rotate_right_ok s2 C _ _ _ _ _ _ _ _ _ H2) as (s3 & E3 & H3 & So3).
          rewrite E3; cbn -[upd rd rotate_left rotate_right].
          eapply rebalA_step; [exact So1|exact H1|by apply (inorder_plug_eq C)|].
          eapply rebalA_step; [exact So2|exact H2|by apply (inorder_plug_eq C)|].
          eapply rebalA_step; [exact So3|exact H3|apply (inorder_plug_eq C); cbn; by rewrite <- !app_assoc|].
          assert (HN : exists N, rbt true N (plug C (Node true pp pk (Node false p k l r) (Node false gp gk sib (Node true up uk ul ur))))).
          { eapply rbt_plug; [|exact HC2]. econstructor; [exact Ht|]. econstructor; [done|].
            inversion Hu; simplify_eq. econstructor; eauto. }
          destruct HN as [N HN].
          eapply (insert_colorA_stop fuel s3 C (FL true pp pk (Node false gp gk sib (Node true up uk ul ur)))); eauto; [|lia]; rot.
        - rewrite decide_True by done.
          destruct (rotate_left_ok s (FL true gp gk (Node true up uk ul ur) :: C) _ _ _ _ _ _ _ _ _ H) as (s0 & E0 & H0 & So0).
          rewrite E0; cbn -[upd rd rotate_left rotate_right].
          destruct (rep_set_color s0 (FL true gp gk (Node true up uk ul ur) :: C) false p k (Node false pp pk sib l) r true H0)
            as (s1 & E1 & H1 & _ & So1). rewrite E1; cbn -[upd rd rotate_left rotate_right].
          destruct (rep_set_color s1 C true gp gk (Node true p k (Node false pp pk sib l) r) (Node true up uk ul ur) false H1)
            as (s2 & E2 & H2 & _ & So2). rewrite E2; cbn -[upd rd rotate_left rotate_right].
          destruct (rotate_right_ok s2 C _ _ _ _ _ _ _ _ _ H2) as (s3 & E3 & H3 & So3).
          rewrite E3; cbn -[upd rd rotate_left rotate_right].
          eapply rebalA_step; [exact So0|exact H0|apply (inorder_plug_eq C); cbn; rewrite <- ?app_assoc; cbn; by rewrite <- ?app_assoc|].
          eapply rebalA_step; [exact So1|exact H1|by apply (inorder_plug_eq C)|].
          eapply rebalA_step; [exact So2|exact H2|by apply (inorder_plug_eq C)|].
          eapply rebalA_step; [exact So3|exact H3|apply (inorder_plug_eq C); cbn; rewrite <- ?app_assoc; cbn; by rewrite <- ?app_assoc|].
          assert (HN : exists N, rbt true N (plug C (Node true p k (Node false pp pk sib l) (Node false gp gk r (Node true up uk ul ur))))).
          { eapply rbt_plug; [|exact HC2]. econstructor; econstructor; eauto.
            inversion Hu; simplify_eq. econstructor; eauto. }
          destruct HN as [N HN].
          eapply (insert_colorA_stop fuel s3 C (FL true p k (Node false gp gk r (Node true up uk ul ur)))); eauto; [|lia]; rot. }
      * (* no uncle *)
        cbn -[upd rd rotate_left rotate_right].
        destruct f as [pcol pp pk sib|pcol pp pk sib]; cbn -[upd rd rotate_left rotate_right] in *; subst pcol.
        -- rewrite decide_False by (intros E; by apply (Hpn _ E)).
          cbn -[upd rd rotate_left rotate_right].
          destruct (rep_set_color s (FL true gp gk Leaf :: C) false pp pk (Node false p k l r) sib true H)
            as (s1 & E1 & H1 & _ & So1). rewrite E1; cbn -[upd rd rotate_left rotate_right].
          destruct (rep_set_color s1 C true gp gk (Node true pp pk (Node false p k l r) sib) Leaf false H1)
            as (s2 & E2 & H2 & _ & So2). rewrite E2; cbn -[upd rd rotate_left rotate_right].
          destruct (rotate_right_ok s2 C _ _ _ _ _ _ _ _ _ H2) as (s3 & E3 & H3 & So3).
          rewrite E3; cbn -[upd rd rotate_left rotate_right].
          eapply rebalA_step; [exact So1|exact H1|by apply (inorder_plug_eq C)|].
          eapply rebalA_step; [exact So2|exact H2|by apply (inorder_plug_eq C)|].
          eapply rebalA_step; [exact So3|exact H3|apply (inorder_plug_eq C); cbn; by rewrite <- !app_assoc|].
          assert (HN : exists N, rbt true N (plug C (Node true pp pk (Node false p k l r) (Node false gp gk sib Leaf)))).
          { eapply rbt_plug; [|exact HC2]. econstructor; [exact Ht|]. econstructor; [done|].
            inversion Hu; simplify_eq. econstructor; eauto. }
          destruct HN as [N HN].
          eapply (insert_colorA_stop fuel s3 C (FL true pp pk (Node false gp gk sib Leaf))); eauto; [|lia]; rot.
        -- rewrite decide_True by done.
          destruct (rotate_left_ok s (FL true gp gk Leaf :: C) _ _ _ _ _ _ _ _ _ H) as (s0 & E0 & H0 & So0).
          rewrite E0; cbn -[upd rd rotate_left rotate_right].
          destruct (rep_set_color s0 (FL true gp gk Leaf :: C) false p k (Node false pp pk sib l) r true H0)
            as (s1 & E1 & H1 & _ & So1). rewrite E1; cbn -[upd rd rotate_left rotate_right].
          destruct (rep_set_color s1 C true gp gk (Node true p k (Node false pp pk sib l) r) Leaf false H1)
            as (s2 & E2 & H2 & _ & So2). rewrite E2; cbn -[upd rd rotate_left rotate_right].
          destruct (rotate_right_ok s2 C _ _ _ _ _ _ _ _ _ H2) as (s3 & E3 & H3 & So3).
          rewrite E3; cbn -[upd rd rotate_left rotate_right].
          eapply rebalA_step; [exact So0|exact H0|apply (inorder_plug_eq C); cbn; rewrite <- ?app_assoc; cbn; by rewrite <- ?app_assoc|].
          eapply rebalA_step; [exact So1|exact H1|by apply (inorder_plug_eq C)|].
          eapply rebalA_step; [exact So2|exact H2|by apply (inorder_plug_eq C)|].
          eapply rebalA_step; [exact So3|exact H3|apply (inorder_plug_eq C); cbn; rewrite <- ?app_assoc; cbn; by rewrite <- ?app_assoc|].
          assert (HN : exists N, rbt true N (plug C (Node true p k (Node false pp pk sib l) (Node false gp gk r Leaf)))).
          { eapply rbt_plug; [|exact HC2]. econstructor; econstructor; eauto.
            inversion Hu; simplify_eq. econstructor; eauto. }
          destruct HN as [N HN].
          eapply (insert_colorA_stop fuel s3 C (FL true p k (Node false gp gk r Leaf))); eauto; [|lia]; rot.
      * (* red uncle: recolour and go up *)
        assert (HU : is_red_opt s (rp (Node false up uk ul ur)) = Some true).
        { cbn -[rd]. replace (plug C (Node true gp gk (fill f (Node false p k l r)) (Node false up uk ul ur)))
            with (plug (FR true gp gk (fill f (Node false p k l r)) :: C) (Node false up uk ul ur)) in H by done.
          by rewrite (rep_rd _ _ _ _ _ _ _ H). }
        cbn [rp] in HU |- *. rewrite HU; cbn -[upd rd rotate_left rotate_right].
        destruct (rep_set_color s (FR true gp gk (fill f (Node false p k l r)) :: C) false up uk ul ur true H)
          as (s1 & E1 & H1 & _ & So1). rewrite E1; cbn -[upd rd rotate_left rotate_right].
        assert (HH : exists s2, upd s1 (fp f) (w_blk true) = Some s2 /\
           exists pl pr ppk, rep s2 (plug (FL true gp gk (Node true up uk ul ur) :: C) (Node true (fp f) ppk pl pr))
             /\ rbt true (S n) (Node true (fp f) ppk pl pr)
             /\ sp (Node true (fp f) ppk pl pr)
             /\ inorder (Node true (fp f) ppk pl pr) = inorder (fill f (Node false p k l r))
             /\ same_out s1 s2 (plug (FR true gp gk (fill f (Node false p k l r)) :: C) (Node true up uk ul ur))).
        { destruct f as [pcol pp pk sib|pcol pp pk sib]; cbn in *; subst pcol.
          - destruct (rep_set_color s1 (FL true gp gk (Node true up uk ul ur) :: C) false pp pk (Node false p k l r) sib true H1)
              as (s2 & E2 & H2 & _ & So2).
            exists s2. split; [done|]. exists (Node false p k l r), sib, pk. split_and!; try done; [econstructor; eauto|apply sp_l; tauto].
          - destruct (rep_set_color s1 (FL true gp gk (Node true up uk ul ur) :: C) false pp pk sib (Node false p k l r) true H1)
              as (s2 & E2 & H2 & _ & So2).
            exists s2. split; [done|]. exists sib, (Node false p k l r), pk. split_and!; try done; [econstructor; eauto|apply sp_r; tauto]. }
        destruct HH as (s2 & E2 & pl & pr & ppk & H2 & Hrb2 & Hsp2 & Ein2 & So2).
        rewrite E2; cbn -[upd rd rotate_left rotate_right].
        destruct (rep_set_color s2 C true gp gk _ _ false H2) as (s3 & E3 & H3 & _ & So3).
        rewrite E3; cbn -[upd rd rotate_left rotate_right].
        eapply rebalA_step; [exact So1|exact H1|by apply (inorder_plug_eq C)|].
        eapply rebalA_step; [exact So2|exact H2|apply (inorder_plug_eq C); cbn in *; by rewrite Ein2|].
        eapply rebalA_step; [exact So3|exact H3|by apply (inorder_plug_eq C)|].
        eapply IH; [exact H3| |exact HC2|lia| |by cbn in HSC; tauto].
        2:{ cbn in HSC. first [apply sp_l; [exact Hsp2|cbn; tauto]|apply sp_r; [cbn; tauto|exact Hsp2]]. }
        inversion Hu; simplify_eq.
        econstructor; [done|]. econstructor; eauto.
    + (* parent is the right child *)
      rewrite decide_False by (intros E; by apply (Hgf _ E)).
      destruct ut as [|uc up uk ul ur].
      2: destruct uc.
      2: { (* black uncle *)
        assert (HU : is_red_opt s (rp (Node true up uk ul ur)) = Some false).
        { cbn -[rd]. replace (plug C (Node true gp gk (Node true up uk ul ur) (fill f (Node false p k l r))))
            with (plug (FL true gp gk (fill f (Node false p k l r)) :: C) (Node true up uk ul ur)) in H by done.
          by rewrite (rep_rd _ _ _ _ _ _ _ H). }
        cbn [rp] in HU |- *. rewrite HU; cbn -[upd rd rotate_left rotate_right].
        destruct f as [pcol pp pk sib|pcol pp pk sib]; cbn -[upd rd rotate_left rotate_right] in *; subst pcol.
        - rewrite decide_True by done.
          destruct (rotate_right_ok s (FR true gp gk (Node true up uk ul ur) :: C) _ _ _ _ _ _ _ _ _ H) as (s0 & E0 & H0 & So0).
          rewrite E0; cbn -[upd rd rotate_left rotate_right].
          destruct (rep_set_color s0 (FR true gp gk (Node true up uk ul ur) :: C) false p k l (Node false pp pk r sib) true H0)
            as (s1 & E1 & H1 & _ & So1). rewrite E1; cbn -[upd rd rotate_left rotate_right].
          destruct (rep_set_color s1 C true gp gk (Node true up uk ul ur) (Node true p k l (Node false pp pk r sib)) false H1)
            as (s2 & E2 & H2 & _ & So2). rewrite E2; cbn -[upd rd rotate_left rotate_right].
          destruct (rotate_left_ok s2 C _ _ _ _ _ _ _ _ _ H2) as (s3 & E3 & H3 & So3).
          rewrite E3; cbn -[upd rd rotate_left rotate_right].
          eapply rebalA_step; [exact So0|exact H0|apply (inorder_plug_eq C); cbn; rewrite <- ?app_assoc; cbn; by rewrite <- ?app_assoc|].
          eapply rebalA_step; [exact So1|exact H1|by apply (inorder_plug_eq C)|].
          eapply rebalA_step; [exact So2|exact H2|by apply (inorder_plug_eq C)|].
          eapply rebalA_step; [exact So3|exact H3|apply (inorder_plug_eq C); cbn; rewrite <- ?app_assoc; cbn; by rewrite <- ?app_assoc|].
          assert (HN : exists N, rbt true N (plug C (Node true p k (Node false gp gk (Node true up uk ul ur) l) (Node false pp pk r sib)))).
          { eapply rbt_plug; [|exact HC2]. econstructor; econstructor; eauto.
            inversion Hu; simplify_eq. econstructor; eauto. }
          destruct HN as [N HN].
          eapply (insert_colorA_stop fuel s3 C (FR true p k (Node false gp gk (Node true up uk ul ur) l))); eauto; [|lia]; rot.
        - rewrite decide_False by (intros E; by apply (Hpn _ E)).
          cbn -[upd rd rotate_left rotate_right].
          destruct (rep_set_color s (FR true gp gk (Node true up uk ul ur) :: C) false pp pk sib (Node false p k l r) true H)
            as (s1 & E1 & H1 & _ & So1). rewrite E1; cbn -[upd rd rotate_left rotate_right].
          destruct (rep_set_color s1 C true gp gk (Node true up uk ul ur) (Node true pp pk sib (Node false p k l r)) false H1)
            as (s2 & E2 & H2 & _ & So2). rewrite E2; cbn -[upd rd rotate_left rotate_right].
          destruct (rotate_left_ok s2 C _ _ _ _ _ _ _ _ _ H2) as (s3 & E3 & H3 & So3).
          rewrite E3; cbn -[upd rd rotate_left rotate_right].
          eapply rebalA_step; [exact So1|exact H1|by apply (inorder_plug_eq C)|].
          eapply rebalA_step; [exact So2|exact H2|by apply (inorder_plug_eq C)|].
          eapply rebalA_step; [exact So3|exact H3|apply (inorder_plug_eq C); cbn; rewrite <- ?app_assoc; cbn; by rewrite <- ?app_assoc|].
          assert (HN : exists N, rbt true N (plug C (Node true pp pk (Node false gp gk (Node true up uk ul ur) sib) (Node false p k l r)))).
          { eapply rbt_plug; [|exact HC2]. econstructor; [|exact Ht]. econstructor; [|done].
            inversion Hu; simplify_eq. econstructor; eauto. }
          destruct HN as [N HN].
          eapply (insert_colorA_stop fuel s3 C (FR true pp pk (Node false gp gk (Node true up uk ul ur) sib))); eauto; [|lia]; rot. }
      * (* no uncle *)
        cbn -[upd rd rotate_left rotate_right].
        destruct f as [pcol pp pk sib|pcol pp pk sib]; cbn -[upd rd rotate_left rotate_right] in *; subst pcol.
        -- rewrite decide_True by done.
          destruct (rotate_right_ok s (FR true gp gk Leaf :: C) _ _ _ _ _ _ _ _ _ H) as (s0 & E0 & H0 & So0).
          rewrite E0; cbn -[upd rd rotate_left rotate_right].
          destruct (rep_set_color s0 (FR true gp gk Leaf :: C) false p k l (Node false pp pk r sib) true H0)
            as (s1 & E1 & H1 & _ & So1). rewrite E1; cbn -[upd rd rotate_left rotate_right].
          destruct (rep_set_color s1 C true gp gk Leaf (Node true p k l (Node false pp pk r sib)) false H1)
            as (s2 & E2 & H2 & _ & So2). rewrite E2; cbn -[upd rd rotate_left rotate_right].
          destruct (rotate_left_ok s2 C _ _ _ _ _ _ _ _ _ H2) as (s3 & E3 & H3 & So3).
          rewrite E3; cbn -[upd rd rotate_left rotate_right].
          eapply rebalA_step; [exact So0|exact H0|apply (inorder_plug_eq C); cbn; rewrite <- ?app_assoc; cbn; by rewrite <- ?app_assoc|].
          eapply rebalA_step; [exact So1|exact H1|by apply (inorder_plug_eq C)|].
          eapply rebalA_step; [exact So2|exact H2|by apply (inorder_plug_eq C)|].
          eapply rebalA_step; [exact So3|exact H3|apply (inorder_plug_eq C); cbn; rewrite <- ?app_assoc; cbn; by rewrite <- ?app_assoc|].
          assert (HN : exists N, rbt true N (plug C (Node true p k (Node false gp gk Leaf l) (Node false pp pk r sib)))).
          { eapply rbt_plug; [|exact HC2]. econstructor; econstructor; eauto.
            inversion Hu; simplify_eq. econstructor; eauto. }
          destruct HN as [N HN].
          eapply (insert_colorA_stop fuel s3 C (FR true p k (Node false gp gk Leaf l))); eauto; [|lia]; rot.
        -- rewrite decide_False by (intros E; by apply (Hpn _ E)).
          cbn -[upd rd rotate_left rotate_right].
          destruct (rep_set_color s (FR true gp gk Leaf :: C) false pp pk sib (Node false p k l r) true H)
            as (s1 & E1 & H1 & _ & So1). rewrite E1; cbn -[upd rd rotate_left rotate_right].
          destruct (rep_set_color s1 C true gp gk Leaf (Node true pp pk sib (Node false p k l r)) false H1)
            as (s2 & E2 & H2 & _ & So2). rewrite E2; cbn -[upd rd rotate_left rotate_right].
          destruct (rotate_left_ok s2 C _ _ _ _ _ _ _ _ _ H2) as (s3 & E3 & H3 & So3).
          rewrite E3; cbn -[upd rd rotate_left rotate_right].
          eapply rebalA_step; [exact So1|exact H1|by apply (inorder_plug_eq C)|].
          eapply rebalA_step; [exact So2|exact H2|by apply (inorder_plug_eq C)|].
          eapply rebalA_step; [exact So3|exact H3|apply (inorder_plug_eq C); cbn; rewrite <- ?app_assoc; cbn; by rewrite <- ?app_assoc|].
          assert (HN : exists N, rbt true N (plug C (Node true pp pk (Node false gp gk Leaf sib) (Node false p k l r)))).
          { eapply rbt_plug; [|exact HC2]. econstructor; [|exact Ht]. econstructor; [|done].
            inversion Hu; simplify_eq. econstructor; eauto. }
          destruct HN as [N HN].
          eapply (insert_colorA_stop fuel s3 C (FR true pp pk (Node false gp gk Leaf sib))); eauto; [|lia]; rot.
      * (* red uncle *)
        assert (HU : is_red_opt s (rp (Node false up uk ul ur)) = Some true).
        { cbn -[rd]. replace (plug C (Node true gp gk (Node false up uk ul ur) (fill f (Node false p k l r))))
            with (plug (FL true gp gk (fill f (Node false p k l r)) :: C) (Node false up uk ul ur)) in H by done.
          by rewrite (rep_rd _ _ _ _ _ _ _ H). }
        cbn [rp] in HU |- *. rewrite HU; cbn -[upd rd rotate_left rotate_right].
        destruct (rep_set_color s (FL true gp gk (fill f (Node false p k l r)) :: C) false up uk ul ur true H)
          as (s1 & E1 & H1 & _ & So1). rewrite E1; cbn -[upd rd rotate_left rotate_right].
        assert (HH : exists s2, upd s1 (fp f) (w_blk true) = Some s2 /\
           exists pl pr ppk, rep s2 (plug (FR true gp gk (Node true up uk ul ur) :: C) (Node true (fp f) ppk pl pr))
             /\ rbt true (S n) (Node true (fp f) ppk pl pr)
             /\ sp (Node true (fp f) ppk pl pr)
             /\ inorder (Node true (fp f) ppk pl pr) = inorder (fill f (Node false p k l r))
             /\ same_out s1 s2 (plug (FL true gp gk (fill f (Node false p k l r)) :: C) (Node true up uk ul ur))).
        { destruct f as [pcol pp pk sib|pcol pp pk sib]; cbn in *; subst pcol.
          - destruct (rep_set_color s1 (FR true gp gk (Node true up uk ul ur) :: C) false pp pk (Node false p k l r) sib true H1)
              as (s2 & E2 & H2 & _ & So2).
            exists s2. split; [done|]. exists (Node false p k l r), sib, pk. split_and!; try done; [econstructor; eauto|apply sp_l; tauto].
          - destruct (rep_set_color s1 (FR true gp gk (Node true up uk ul ur) :: C) false pp pk sib (Node false p k l r) true H1)
              as (s2 & E2 & H2 & _ & So2).
            exists s2. split; [done|]. exists sib, (Node false p k l r), pk. split_and!; try done; [econstructor; eauto|apply sp_r; tauto]. }
        destruct HH as (s2 & E2 & pl & pr & ppk & H2 & Hrb2 & Hsp2 & Ein2 & So2).
        rewrite E2; cbn -[upd rd rotate_left rotate_right].
        destruct (rep_set_color s2 C true gp gk _ _ false H2) as (s3 & E3 & H3 & _ & So3).
        rewrite E3; cbn -[upd rd rotate_left rotate_right].
        eapply rebalA_step; [exact So1|exact H1|by apply (inorder_plug_eq C)|].
        eapply rebalA_step; [exact So2|exact H2|apply (inorder_plug_eq C); cbn in *; by rewrite Ein2|].
        eapply rebalA_step; [exact So3|exact H3|by apply (inorder_plug_eq C)|].
        eapply IH; [exact H3| |exact HC2|lia| |by cbn in HSC; tauto].
        2:{ cbn in HSC. first [apply sp_l; [exact Hsp2|cbn; tauto]|apply sp_r; [cbn; tauto|exact Hsp2]]. }
        inversion Hu; simplify_eq.
        econstructor; [|done]. econstructor; eauto.
Qed.
End rb_aug.
