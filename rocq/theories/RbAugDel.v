(** C87, removals: rb_augment_erase_begin, rb_erase, rb_augment_erase_end. *)
From Verif Require Import RbModel RbZip RbRot RbInsert RbErase RbRemove RbSpec RbHist RbNav RbAugModel RbAugIns RbAugPath RbAugErase RbAugRemove.

Section rb_del.
Context {K V : Type} (F : K -> option V -> option V -> V).
Implicit Types (s : rbs K) (t : tree K) (C : ctx K) (g : positive -> V).

Lemma offe_split g n0 t : offe F g n0 t ->
  exists C c k l r, t = plug C (Node c n0 k l r) /\ inner F g (Node c n0 k l r) /\ isibs F g C.
Proof.
  induction 1 as [c k l r Hl Hr|c p k l r _ (C & c' & k' & l' & r' & -> & A & D) Hr|c p k l r Hl _ (C & c' & k' & l' & r' & -> & A & D)].
  - exists [], c, k, l, r. split_and!; try done. constructor.
  - exists (C ++ [FL c p k r]), c', k', l', r'. rewrite plug_app. split_and!; try done. apply Forall_app. split; [done|]. by repeat constructor.
  - exists (C ++ [FR c p k l]), c', k', l', r'. rewrite plug_app. split_and!; try done. apply Forall_app. split; [done|]. by repeat constructor.
Qed.
Lemma erase_end_ok fuel s g n0 t :
  rep s t -> offe F g n0 t -> length (inorder t) <= fuel ->
  exists g', augment_path F fuel s g n0 = Some g' /\ allc F g' t.
Proof.
  intros H (C & c & k & l & r & -> & Hi & HC)%offe_split Hf. apply path_ok; [exact H|done|done|].
  pose proof (size_plug C (Node c n0 k l r)) as Hs. cbn in Hs. rewrite app_length in Hs. cbn in Hs. lia.
Qed.
Lemma sibs_app g C D : sibs F g (C ++ D) <-> sibs F g C /\ sibs F g D.
Proof. induction C as [|f C IH]; cbn; [tauto|]. rewrite IH. tauto. Qed.

(** what a removal with summaries achieves, [d] being the result of rb_augment_erase_begin *)
Definition summed fuel s g t0 (want : list (positive * K)) (d : option positive) (r : option (rbs K)) : Prop :=
  exists s' t', r = Some s' /\ rep s' t' /\ inorder t' = want
     /\ (exists N, rbt true N t') /\ same_out s s' t0
     /\ forall s2, rep s2 t' -> exists g', augment_erase_end F fuel s2 g d = Some g' /\ allc F g' t'.
Lemma summed_of fuel s g t0 want n0 r :
  erasedE F g n0 s t0 want r -> length want <= fuel -> summed fuel s g t0 want (Some n0) r.
Proof.
  intros (s' & t' & E & Hr & Hi & HN & HO & So) Hf. exists s', t'. split_and!; try done.
  intros s2 H2. cbn. eapply erase_end_ok; [done|done|by rewrite Hi].
Qed.

Lemma erase_sum_ok fuel s g C c p k l r N :
  rep s (plug C (Node c p k l r)) -> rbt true N (plug C (Node c p k l r)) -> allc F g (plug C (Node c p k l r)) ->
  length (inorder (plug C (Node c p k l r))) + 2 <= fuel ->
  exists d, augment_erase_begin fuel s p = Some d
    /\ summed fuel s g (plug C (Node c p k l r)) (lo C ++ inorder l ++ inorder r ++ hi C) d (erase fuel s p).
Proof.
  intros H HN HA Hf.
  pose proof (size_plug C (Node c p k l r)) as HS. cbn in HS. rewrite app_length in HS. cbn in HS.
  assert (HW : length (lo C ++ inorder l ++ inorder r ++ hi C) <= fuel).
  { clear HS. rewrite inorder_plug in Hf. cbn [inorder] in Hf. rewrite ?app_length in Hf. cbn [length] in Hf. rewrite !app_length. lia. }
  pose proof HA as HA0. apply allc_plug in HA0 as [(_ & HAl & HAr) HC].
  unfold augment_erase_begin. rewrite (rep_rd _ _ _ _ _ _ _ H). cbn [mbind option_bind lft rgt par].
  destruct l as [|lc lp lk ll lr]; [destruct r as [|rc rp0 rk rl rr]|destruct r as [|rc rp0 rk rl rr]]; cbn [rp].
  - exists (pc C). split; [done|]. destruct C as [|f C].
    + destruct (erase_ok fuel s [] c p k Leaf Leaf N H HN Hf) as (s' & t' & E & Hr & Hi & HN' & So).
      exists s', t'. split_and!; try done. intros s2 _. exists g. split; [done|]. destruct t' as [|c' p' k' l' r']; [done|].
      cbn in Hi. by destruct (inorder l').
    + cbn [pc]. apply summed_of; [|done].
      unfold erase. rewrite (rep_rd _ _ _ _ _ _ _ H). cbn [mbind option_bind lft rgt par rp blk].
      eapply (erase_oneE F g (fp f) _ _ _ _ _ _ _ _ _ Leaf); [exact H|exact HN|by left|lia| |exact HC]. by right.
  - exists (Some rp0). split; [done|]. apply summed_of; [|done].
    unfold erase. rewrite (rep_rd _ _ _ _ _ _ _ H). cbn [mbind option_bind lft rgt par rp blk].
    eapply (erase_oneE F g rp0 _ _ _ _ _ _ _ _ _ (Node rc rp0 rk rl rr)); [exact H|exact HN|by left|lia| |exact HC].
    apply offe_lowc. by apply offe_here; apply HAr.
  - exists (Some lp). split; [done|]. apply summed_of; [|done].
    unfold erase. rewrite (rep_rd _ _ _ _ _ _ _ H). cbn [mbind option_bind lft rgt par rp blk].
    eapply (erase_oneE F g lp _ _ _ _ _ _ _ _ _ (Node lc lp lk ll lr)); [exact H|exact HN|by right|lia| |exact HC].
    apply offe_lowc. by apply offe_here; apply HAl.
  - rewrite (next_zip fuel s C c p k _ _ H) by lia. cbn [mbind option_bind].
    destruct (min_split rc rp0 rk rl rr) as (D & sc & sp & sk & sr & E & HD).
    assert (HH : fst <$> head (inorder (Node rc rp0 rk rl rr) ++ hi C) = Some sp).
    { rewrite E, inorder_plug, (lo_FL D HD). done. }
    rewrite HH. clear HH.
    pose proof H as H'. rewrite E in H'.
    assert (EQ : forall x t, plug C (Node c x k (Node lc lp lk ll lr) (plug D t)) = plug (D ++ FR c x k (Node lc lp lk ll lr) :: C) t)
      by (intros; by rewrite plug_app).
    rewrite EQ in H'. rewrite (rep_rd _ _ _ _ _ _ _ H'). cbn [mbind option_bind rgt par].
    pose proof HA as HA2. rewrite E, EQ in HA2. apply allc_plug in HA2 as [(_ & _ & HAs) HSi].
    assert (HSi2 : sibs F g (D ++ FR c sp sk (Node lc lp lk ll lr) :: C)).
    { apply sibs_app in HSi as [HSi1 HSi2]. apply sibs_app. split; [exact HSi1|exact HSi2]. }
    assert (HfD : length C + length D + 3 <= fuel).
    { pose proof (size_plug D (Node sc sp sk Leaf sr)) as HS2. rewrite <- E in HS2. cbn in HS, HS2. rewrite ?app_length in *. cbn in *. lia. }
    assert (GO : forall n0, lowc F g n0 (D ++ FR c sp sk (Node lc lp lk ll lr) :: C) sr ->
      summed fuel s g (plug C (Node c p k (Node lc lp lk ll lr) (Node rc rp0 rk rl rr)))
       (lo C ++ inorder (Node lc lp lk ll lr) ++ inorder (Node rc rp0 rk rl rr) ++ hi C) (Some n0) (erase fuel s p)).
    { intros n0 HL. apply summed_of; [|done]. eapply erase_twoE; [exact H|exact HN|done|exact E|exact HD|exact HfD|exact HL|exact HSi2]. }
    destruct sr as [|src srp srk srl srr]; cbn [rp].
    + destruct D as [|f D].
      * cbn [app pc fp]. rewrite decide_True by done. exists (Some sp). split; [done|]. apply GO. by right.
      * cbn [app pc]. rewrite decide_False.
        -- exists (Some (fp f)). split; [done|]. apply GO. by right.
        -- intros [= Ep]. apply rep_plug in H' as (_ & _ & ND). cbn in ND.
           apply NoDup_cons in ND as [_ ND]. apply NoDup_cons in ND as [ND _]. apply ND. rewrite Ep.
           apply elem_of_app; right. clear. induction D as [|f' D IH]; cbn; set_solver.
    + exists (Some srp). split; [done|]. apply GO. apply offe_lowc. by apply offe_here; apply HAs.
Qed.
End rb_del.
