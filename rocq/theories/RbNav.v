(** Histories, navigation, cover lookup and iteration. *)
From Verif Require Import RbModel RbZip RbRot RbInsert RbErase RbRemove RbSpec RbHist.

Section rb_nav.
Context {K : Type}.
Implicit Types (s : rbs K) (t : tree K) (C : ctx K) (l : list (positive * K)).

(** ** navigation *)
Lemma rp_ne_sib C f c p k tl tr s :
  rep s (plug (f :: C) (Node c p k tl tr)) -> rp (fsib f) <> Some p.
Proof.
  intros H. apply rep_plug in H as (_ & _ & ND). cbn in ND. apply NoDup_cons in ND as [ND _].
  intros E. apply rp_elem in E. set_solver.
Qed.
Lemma rd_parent s C f t : rep s (plug (f :: C) t) -> rd s (fp f) = Some (fnode f (pc C) (rp t)).
Proof.
  intros H. apply (proj1 (rep_plug s (f::C) _)) in H. destruct H as (_ & HC & _). cbn in HC. unfold rd; naive_solver.
Qed.
Lemma up_right_ok fuel s C c p k tl tr :
  rep s (plug C (Node c p k tl tr)) -> length C < fuel -> up_right fuel s p = Some (fst <$> head (hi C)).
Proof.
  revert C c p k tl tr; induction fuel as [|fuel IH]; intros C c p k tl tr H Hf; [lia|].
  cbn -[rd]. rewrite (rep_rd _ _ _ _ _ _ _ H). cbn -[rd]. destruct C as [|f C]; [done|].
  cbn -[rd]. rewrite (rd_parent _ _ _ _ H). pose proof (rp_ne_sib _ _ _ _ _ _ _ _ H) as Hne.
  destruct f as [c' p' k' r'|c' p' k' l']; cbn -[rd].
  - rewrite decide_False by done. done.
  - rewrite decide_True by done. apply (IH C c' p' k' l' (Node c p k tl tr)); [exact H|cbn in Hf; lia].
Qed.
Lemma up_left_ok fuel s C c p k tl tr :
  rep s (plug C (Node c p k tl tr)) -> length C < fuel -> up_left fuel s p = Some (fst <$> last (lo C)).
Proof.
  revert C c p k tl tr; induction fuel as [|fuel IH]; intros C c p k tl tr H Hf; [lia|].
  cbn -[rd]. rewrite (rep_rd _ _ _ _ _ _ _ H). cbn -[rd]. destruct C as [|f C]; [done|].
  cbn -[rd]. rewrite (rd_parent _ _ _ _ H). pose proof (rp_ne_sib _ _ _ _ _ _ _ _ H) as Hne.
  destruct f as [c' p' k' r'|c' p' k' l']; cbn -[rd].
  - rewrite decide_True by done. apply (IH C c' p' k' (Node c p k tl tr) r'); [exact H|cbn in Hf; lia].
  - rewrite decide_False by done. rewrite app_assoc, last_snoc. done.
Qed.

Definition isFR (f : frame K) : Prop := match f with FR _ _ _ _ => True | FL _ _ _ _ => False end.
Lemma max_split c p k (l r : tree K) :
  exists D sc sp sk sl, Node c p k l r = plug D (Node sc sp sk sl Leaf) /\ Forall isFR D.
Proof.
  revert c p k l; induction r as [|c' p' k' l' _ r' IH]; intros c p k l.
  - exists [], c, p, k, l. done.
  - destruct (IH c' p' k' l') as (D & sc & sp & sk & sl & E & HD).
    exists (D ++ [FR c p k l]), sc, sp, sk, sl. rewrite plug_app, <- E. split; [done|].
    apply Forall_app; split; [done|]. by repeat constructor.
Qed.
Lemma go_right_ok fuel s C D sc sp sk sl x :
  rep s (plug C (plug D (Node sc sp sk sl Leaf))) -> Forall isFR D ->
  rp (plug D (Node sc sp sk sl Leaf)) = Some x -> length D < fuel ->
  go_right fuel s x = Some sp.
Proof.
  revert C D x; induction fuel as [|fuel IH]; intros C D x H HD Hx Hf; [lia|].
  assert (HDc : D = [] \/ exists D' f, D = D' ++ [f]).
  { clear. induction D as [|f D' _] using rev_ind; eauto. }
  destruct HDc as [->|(D' & f & ->)].
  - cbn in Hx, H. injection Hx as <-. cbn -[rd]. by rewrite (rep_rd _ _ _ _ _ _ _ H).
  - rewrite plug_app in H, Hx. apply Forall_app in HD as [HD1 HD2]. apply Forall_cons in HD2 as [Hf1 _].
    destruct f as [|c p k l]; [done|]. cbn in Hx. injection Hx as <-. cbn [plug fill] in H.
    cbn -[rd]. rewrite (rep_rd _ _ _ _ _ _ _ H). cbn.
    assert (HX : exists y, rp (plug D' (Node sc sp sk sl Leaf)) = Some y).
    { clear. assert (G : forall t, t <> Leaf -> exists y, rp (plug D' t) = Some y).
      { induction D' as [|f D' IH]; intros t Ht; cbn; [destruct t; [done|eauto]|]. apply IH. by destruct f. }
      by apply G. }
    destruct HX as [y Hy]. rewrite Hy.
    apply (IH (FR c p k l :: C) D' y H HD1 Hy). rewrite app_length in Hf. cbn in Hf. lia.
Qed.

Lemma lo_FL (D : ctx K) : Forall isFL D -> lo D = [].
Proof. induction D as [|f D IH]; cbn; [done|]. intros [Hf HD]%Forall_cons. destruct f; [|done]. by apply IH. Qed.
Lemma hi_FR (D : ctx K) : Forall isFR D -> hi D = [].
Proof. induction D as [|f D IH]; cbn; [done|]. intros [Hf HD]%Forall_cons. destruct f; [done|]. by apply IH. Qed.

Lemma go_left_head fuel s C c p k tl tr :
  rep s (plug C (Node c p k tl tr)) -> length (inorder (Node c p k tl tr)) < fuel ->
  exists m, go_left fuel s p = Some m /\ Some m = fst <$> head (inorder (Node c p k tl tr)).
Proof.
  intros H Hf. destruct (min_split c p k tl tr) as (D & sc & sp & sk & sr & E & HD).
  exists sp. split.
  - rewrite E in H. eapply go_left_ok; [exact H|exact HD|by rewrite <- E|].
    rewrite E in Hf. pose proof (size_plug D (Node sc sp sk Leaf sr)). lia.
  - rewrite E, inorder_plug, lo_FL by done. done.
Qed.
Lemma go_right_last fuel s C c p k tl tr :
  rep s (plug C (Node c p k tl tr)) -> length (inorder (Node c p k tl tr)) < fuel ->
  exists m, go_right fuel s p = Some m /\ Some m = fst <$> last (inorder (Node c p k tl tr)).
Proof.
  intros H Hf. destruct (max_split c p k tl tr) as (D & sc & sp & sk & sl & E & HD).
  exists sp. split.
  - rewrite E in H. eapply go_right_ok; [exact H|exact HD|by rewrite <- E|].
    rewrite E in Hf. pose proof (size_plug D (Node sc sp sk sl Leaf)). lia.
  - rewrite E, inorder_plug, hi_FR by done. cbn. rewrite app_nil_r, app_assoc, last_snoc. done.
Qed.
Lemma head_app_ne {A} (l1 l2 : list A) : l1 <> [] -> head (l1 ++ l2) = head l1.
Proof. by destruct l1. Qed.
Lemma last_app_ne {A} (l1 l2 : list A) : l2 <> [] -> last (l1 ++ l2) = last l2.
Proof.
  intros H. assert (exists (l0 : list A) x, l2 = l0 ++ [x]) as (l & x & ->).
  { induction l2 as [|x l _] using rev_ind; [done|eauto]. }
  by rewrite app_assoc, !last_snoc.
Qed.

Lemma par_ne_self C c p k tl tr s : rep s (plug C (Node c p k tl tr)) -> pc C <> Some p.
Proof.
  intros H E. apply pc_elem in E. apply rep_plug in H as (_ & _ & ND). cbn in ND. apply NoDup_cons in ND as [ND _]. set_solver.
Qed.
Lemma next_zip fuel s C c p k tl tr :
  rep s (plug C (Node c p k tl tr)) -> length (inorder (plug C (Node c p k tl tr))) < fuel ->
  rb_next fuel s p = Some (fst <$> head (inorder tr ++ hi C)).
Proof.
  intros H Hf. pose proof (size_plug C (Node c p k tl tr)) as HS. cbn in HS. rewrite app_length in HS. cbn in HS.
  unfold rb_next. rewrite (rep_rd _ _ _ _ _ _ _ H). cbn -[go_left up_right].
  rewrite decide_False by (by eapply par_ne_self).
  destruct tr as [|rc q rk rl rr]; cbn [rp].
  - eapply up_right_ok; [exact H|lia].
  - pose proof (H : rep s (plug (FR c p k tl :: C) (Node rc q rk rl rr))) as H'.
    assert (HL : length (inorder (Node rc q rk rl rr)) < fuel) by lia.
    destruct (go_left_head fuel s _ _ _ _ _ _ H' HL) as (m & E & Hm). rewrite E.
    rewrite head_app_ne; [rewrite <- Hm; done|]. cbn. by destruct (inorder rl).
Qed.
Lemma prev_zip fuel s C c p k tl tr :
  rep s (plug C (Node c p k tl tr)) -> length (inorder (plug C (Node c p k tl tr))) < fuel ->
  rb_prev fuel s p = Some (fst <$> last (lo C ++ inorder tl)).
Proof.
  intros H Hf. pose proof (size_plug C (Node c p k tl tr)) as HS. cbn in HS. rewrite app_length in HS. cbn in HS.
  unfold rb_prev. rewrite (rep_rd _ _ _ _ _ _ _ H). cbn -[go_right up_left].
  rewrite decide_False by (by eapply par_ne_self).
  destruct tl as [|rc q rk rl rr]; cbn [rp].
  - cbn [inorder]. rewrite app_nil_r. eapply up_left_ok; [exact H|lia].
  - pose proof (H : rep s (plug (FL c p k tr :: C) (Node rc q rk rl rr))) as H'.
    assert (HL : length (inorder (Node rc q rk rl rr)) < fuel) by lia.
    destruct (go_right_last fuel s _ _ _ _ _ _ H' HL) as (m & E & Hm). rewrite E.
    rewrite last_app_ne; [rewrite <- Hm; done|]. cbn. by destruct (inorder rl).
Qed.

Lemma inv_first fuel s l : inv s l -> length l < fuel -> rb_first fuel s = Some (fst <$> head l).
Proof.
  intros (t & H & <- & _ & _) Hf. unfold rb_first. pose proof H as (-> & _). destruct t as [|c p k tl tr]; [done|].
  cbn [rp]. destruct (go_left_head fuel s [] _ _ _ _ _ H Hf) as (m & -> & Hm). by rewrite <- Hm.
Qed.
Lemma inv_last fuel s l : inv s l -> length l < fuel -> rb_last fuel s = Some (fst <$> last l).
Proof.
  intros (t & H & <- & _ & _) Hf. unfold rb_last. pose proof H as (-> & _). destruct t as [|c p k tl tr]; [done|].
  cbn [rp]. destruct (go_right_last fuel s [] _ _ _ _ _ H Hf) as (m & -> & Hm). by rewrite <- Hm.
Qed.
Lemma inv_NoDup s l : inv s l -> NoDup (l.*1).
Proof. intros (t & H & <- & _). rewrite <- ids_inorder. apply H. Qed.

Lemma inv_focus s l1 n d l2 : inv s (l1 ++ (n, d) :: l2) ->
  exists C c tl tr, rep s (plug C (Node c n d tl tr)) /\ l1 = lo C ++ inorder tl /\ l2 = inorder tr ++ hi C
    /\ inorder (plug C (Node c n d tl tr)) = l1 ++ (n, d) :: l2.
Proof.
  intros Hi. pose proof (inv_NoDup _ _ Hi) as ND. destruct Hi as (t & H & E & _ & _).
  assert (Hn : n ∈ ids t). { rewrite ids_inorder, E, fmap_app. cbn. set_solver. }
  destruct (focus t n Hn) as (C & c & k & tl & tr & ->). exists C, c, tl, tr.
  pose proof E as E'. rewrite inorder_plug in E'. cbn in E'. rewrite <- app_assoc in E'. cbn in E'. rewrite app_assoc in E'.
  symmetry in E'. destruct (focus_unique _ _ _ _ _ _ _ ND E') as (-> & -> & ->). done.
Qed.
Lemma inv_next fuel s l1 n d l2 : inv s (l1 ++ (n, d) :: l2) -> length (l1 ++ (n, d) :: l2) < fuel ->
  rb_next fuel s n = Some (fst <$> head l2).
Proof.
  intros H Hf. destruct (inv_focus _ _ _ _ _ H) as (C & c & tl & tr & Hr & E1 & E2 & E3).
  rewrite <- E3 in Hf. rewrite (next_zip _ _ _ _ _ _ _ _ Hr Hf). by rewrite E2.
Qed.
Lemma inv_prev fuel s l1 n d l2 : inv s (l1 ++ (n, d) :: l2) -> length (l1 ++ (n, d) :: l2) < fuel ->
  rb_prev fuel s n = Some (fst <$> last l1).
Proof.
  intros H Hf. destruct (inv_focus _ _ _ _ _ H) as (C & c & tl & tr & Hr & E1 & E2 & E3).
  rewrite <- E3 in Hf. rewrite (prev_zip _ _ _ _ _ _ _ _ Hr Hf). by rewrite E1.
Qed.
Lemma inv_dat s l1 n d l2 : inv s (l1 ++ (n, d) :: l2) -> exists nn, rd s n = Some nn /\ dat nn = d.
Proof.
  intros H. destruct (inv_focus _ _ _ _ _ H) as (C & c & tl & tr & Hr & _).
  rewrite (rep_rd _ _ _ _ _ _ _ Hr). eauto.
Qed.

Lemma walk_from_ok F fuel s l1 l2 :
  inv s (l1 ++ l2) -> length (l1 ++ l2) < F -> length l2 <= fuel ->
  walk_from F fuel s (fst <$> head l2) = Some l2.
Proof.
  revert fuel l1; induction l2 as [|[n d] l2 IH]; intros fuel l1 H HF Hf; cbn.
  - by destruct fuel.
  - destruct fuel as [|fuel]; [cbn in Hf; lia|]. cbn -[rd rb_next].
    destruct (inv_dat _ _ _ _ _ H) as (nn & -> & Hd). cbn -[rd rb_next].
    rewrite (inv_next _ _ _ _ _ _ H HF). cbn -[rd rb_next].
    rewrite (cons_middle (n, d)), app_assoc in H, HF. cbn in Hf.
    rewrite (IH fuel _ H HF) by lia. cbn. by rewrite Hd.
Qed.
Lemma inv_walk fuel s l : inv s l -> length l < fuel -> walk fuel s = Some l.
Proof.
  intros H Hf. unfold walk. rewrite (inv_first _ _ _ H Hf). cbn -[walk_from].
  eapply (walk_from_ok _ _ _ []); cbn; [done|done|lia].
Qed.

(** ** iteration *)
Definition iter_keep (r : iter_ret) : bool := match r with IterContinue | IterBreak => true | _ => false end.
Definition iter_go (r : iter_ret) : bool := match r with IterContinue | IterRemoveContinue => true | _ => false end.

Lemma iter_loop_ok {A} F fuel (cb : K -> A -> iter_ret * A) s a l1 l2 :
  inv s (l1 ++ l2) -> length (l1 ++ l2) + 2 <= F -> length l2 <= fuel ->
  exists s', iter_loop F fuel cb s a (fst <$> head l2)
             = Some (s', (iterate iter_keep iter_go cb l2 a).2)
    /\ inv s' (l1 ++ (iterate iter_keep iter_go cb l2 a).1).
Proof.
  revert fuel l1 s a; induction l2 as [|[n d] l2 IH]; intros fuel l1 s a H HF Hf; cbn.
  - exists s. split; [by destruct fuel|done].
  - destruct fuel as [|fuel]; [cbn in Hf; lia|]. cbn -[rd rb_next rbtree_remove].
    rewrite (inv_next F _ _ _ _ _ H ltac:(lia)). cbn -[rd rb_next rbtree_remove].
    destruct (inv_dat _ _ _ _ _ H) as (nn & -> & Hd). cbn -[rd rb_next rbtree_remove]. rewrite Hd.
    assert (HR : exists s', rbtree_remove F s n = Some s' /\ inv s' (l1 ++ l2)).
    { destruct (inv_remove F s _ n H) as (s' & E & Hi).
      - rewrite fmap_app. cbn. set_solver.
      - lia.
      - exists s'. split; [done|]. rewrite drop_node_focus in Hi; [done|]. by apply inv_NoDup in H. }
    rewrite app_length in HF. cbn in Hf, HF.
    destruct (cb d a) as [[] a'] eqn:Ecb; cbn -[rbtree_remove].
    + rewrite (cons_middle (n, d)), app_assoc in H.
      destruct (IH fuel (l1 ++ [(n, d)]) s a' H) as (s' & E & Hi); [rewrite !app_length; cbn; lia|lia|].
      exists s'. rewrite E. destruct (iterate iter_keep iter_go cb l2 a') as [rest a'']. cbn in *.
      split; [done|]. by rewrite <- app_assoc in Hi.
    + destruct HR as (s1 & -> & H1). cbn -[rbtree_remove].
      destruct (IH fuel l1 s1 a' H1) as (s' & E & Hi); [rewrite app_length; lia|lia|].
      exists s'. rewrite E. destruct (iterate iter_keep iter_go cb l2 a') as [rest a'']. done.
    + exists s. done.
    + destruct HR as (s1 & -> & H1). cbn. exists s1. done.
Qed.
Lemma inv_iterator {A} fuel (cb : K -> A -> iter_ret * A) s a l :
  inv s l -> length l + 2 <= fuel ->
  exists s', rbtree_iterator fuel cb s a = Some (s', (iterate iter_keep iter_go cb l a).2)
    /\ inv s' (iterate iter_keep iter_go cb l a).1.
Proof.
  intros H Hf. unfold rbtree_iterator. rewrite (inv_first _ _ _ H) by lia. cbn -[iter_loop].
  apply (iter_loop_ok fuel fuel cb s a [] l); cbn; [done|lia|lia].
Qed.

End rb_nav.

(** ** cover *)
Section ord.
Context {K : Type} (cmp : K -> K -> Z).
Implicit Types (s : rbs K) (t : tree K) (C : ctx K) (l : list (positive * K)).
Notation sorted := (strictly_sorted cmp).
Hypothesis TO : total_order cmp.

Lemma filter_all_gt k l :
  Forall (fun e => (cmp k e.2 < 0)%Z) l -> filter (fun e : positive * K => (0 <= cmp k e.2)%Z) l = [].
Proof.
  induction l as [|e l IH]; [done|]. intros [H1 H2]%Forall_cons. rewrite filter_cons_False by lia. by apply IH.
Qed.
Lemma cover_split k l1 e l2 :
  (0 <= cmp k e.2)%Z -> Forall (fun e => (cmp k e.2 < 0)%Z) l2 -> cover cmp k (l1 ++ e :: l2) = Some e.1.
Proof.
  intros He H2. unfold cover. rewrite filter_app, filter_cons_True by done. rewrite (filter_all_gt k l2) by done.
  by rewrite last_snoc.
Qed.
Lemma cover_all_gt k l : Forall (fun e => (cmp k e.2 < 0)%Z) l -> cover cmp k l = fst <$> last l.
Proof. intros H. unfold cover. by rewrite filter_all_gt. Qed.

Lemma sorted_gt_tail k e l : sorted (e :: l) -> (cmp k e.2 <= 0)%Z -> Forall (fun e => (cmp k e.2 < 0)%Z) l.
Proof.
  intros Hs Hk. apply sorted_cons in Hs as [_ Hs]. apply Forall_forall. intros x Hx.
  eapply (cmp_le_lt_trans cmp TO); [exact Hk|by apply Hs].
Qed.

Lemma find_cover_zip F fuel s k C c p d tl tr :
  rep s (plug C (Node c p d tl tr)) -> sorted (inorder (plug C (Node c p d tl tr))) ->
  Forall (fun e => (0 < cmp k e.2)%Z) (lo C) -> Forall (fun e => (cmp k e.2 < 0)%Z) (hi C) ->
  length (inorder (plug C (Node c p d tl tr))) < F -> height (Node c p d tl tr) <= fuel ->
  find_cover_loop cmp F fuel s k p = Some (cover cmp k (inorder (plug C (Node c p d tl tr)))).
Proof.
  revert C c p d tl tr; induction fuel as [|fuel IH]; intros C c p d tl tr H Hs Hlo Hhi HF Hf; [cbn in Hf; lia|].
  pose proof Hs as Hs'. pose proof (inorder_plug C (Node c p d tl tr)) as Ep. cbn in Ep. rewrite <- app_assoc in Ep. cbn in Ep.
  rewrite Ep in Hs'. rewrite app_assoc in Hs'. apply sorted_app in Hs' as (_ & Hs2 & Hs3).
  cbn -[rd rb_prev rb_last]. rewrite (rep_rd _ _ _ _ _ _ _ H). cbn -[rd rb_prev rb_last]. cbn in Hf.
  destruct (Z.ltb_spec (cmp k d) 0) as [Hlt|Hge].
  - pose proof (sorted_gt_tail k _ _ Hs2 (Z.lt_le_incl _ _ Hlt)) as Hgt.
    destruct tl as [|lc q ld ll lr]; cbn [rp].
    + rewrite (prev_zip _ _ _ _ _ _ _ _ H HF). cbn -[rb_last]. rewrite app_nil_r.
      cbn in Ep. rewrite Ep.
      assert (Hall : Forall (fun e => (cmp k e.2 < 0)%Z) ((p, d) :: inorder tr ++ hi C)) by (by constructor).
      assert (HL : lo C = [] \/ exists l0 x, lo C = l0 ++ [x]).
      { induction (lo C) as [|x l0 _] using rev_ind; eauto. }
      destruct HL as [HL|(l0 & x & HL)]; rewrite HL.
      * cbn -[rb_last]. rewrite cover_all_gt by done. 
        assert (Hroot : forall t, rep s t -> t <> Leaf -> length (inorder t) < F -> rb_last F s = Some (fst <$> last (inorder t))).
        { intros t Ht Hne HtF. unfold rb_last. pose proof Ht as (-> & _). destruct t as [|c1 p1 k1 tl1 tr1]; [done|].
          cbn [rp]. destruct (go_right_last F s [] _ _ _ _ _ Ht HtF) as (m & -> & Hm). by rewrite <- Hm. }
        rewrite (Hroot _ H); [|intros E; rewrite E in Ep; by destruct (lo C)|done].
        rewrite Ep, HL. done.
      * rewrite last_snoc. cbn -[rb_last]. rewrite <- app_assoc. cbn [app]. rewrite cover_split; [done| |done].
        rewrite HL in Hlo. apply Forall_app in Hlo as [_ Hlo]. apply Forall_cons in Hlo as [Hlo _]. lia.
    + rewrite (IH (FL c p d tr :: C) lc q ld ll lr); [done|exact H|exact Hs|exact Hlo| |exact HF|cbn in *; lia].
      cbn. constructor; done.
  - destruct (Z.ltb_spec 0 (cmp k d)) as [Hgt|Hle].
    + destruct tr as [|rc q rd' rl rr]; cbn [rp].
      * rewrite Ep, app_assoc, cover_split; [done|cbn; lia|]. done.
      * rewrite (IH (FR c p d tl :: C) rc q rd' rl rr); [done|exact H|exact Hs| |exact Hhi|exact HF|cbn in *; lia].
        cbn. apply Forall_app. split; [done|]. apply Forall_app. split; [|by constructor].
        apply Forall_forall. intros e He.
        assert (Hed : (cmp e.2 d < 0)%Z) by (apply (Hs3 e (p, d)); set_solver).
        apply cmp_neg; [done|]. eapply cmp_lt_trans; [done|exact Hed|]. apply (cmp_neg cmp) in Hgt; [lia|done].
    + rewrite Ep, app_assoc, cover_split; [done|cbn; lia|]. eapply sorted_gt_tail; [exact Hs2|]. cbn. lia.
Qed.
Lemma inv_cover fuel s l k :
  inv s l -> sorted l -> length l < fuel -> rbtree_find_cover cmp fuel s k = Some (cover cmp k l).
Proof.
  intros (t & H & <- & _ & _) Hs Hf. unfold rbtree_find_cover. pose proof H as (-> & _).
  destruct t as [|c p d tl tr]; [done|]. cbn [rp].
  apply (find_cover_zip fuel fuel s k [] c p d tl tr); try done; [by constructor|by constructor|].
  pose proof (height_inorder (Node c p d tl tr)). lia.
Qed.

(** ** histories *)
Lemma put_sorted k d a l :
  sorted l -> lookup_key cmp k l = None -> cmp k d = 0%Z -> sorted (put cmp k (a, d) l).
Proof.
  intros Hs Hl Hk. assert (Hdk : cmp d k = 0%Z) by (by apply cmp_zero).
  induction l as [|[n e] l IH]; cbn.
  - apply sorted_cons. split; [done|set_solver].
  - cbn in Hl. destruct (Z.eqb_spec (cmp k e) 0) as [?|Hne]; [done|].
    pose proof Hs as Hs0. apply sorted_cons in Hs as [Hs Hlt].
    destruct (Z.ltb_spec (cmp k e) 0) as [Hke|Hke].
    + assert (Hde : (cmp d e < 0)%Z) by (eapply cmp_le_lt_trans; [done| |exact Hke]; lia).
      apply sorted_cons. split; [done|]. intros b [->|Hb]%elem_of_cons; cbn; [done|].
      eapply cmp_lt_trans; [done|exact Hde|]. specialize (Hlt b Hb). cbn in Hlt. lia.
    + apply sorted_cons. split; [by apply IH|]. intros b Hb.
      assert (Hb' : b = (a, d) \/ b ∈ l).
      { clear -Hb. induction l as [|[m x] l IH]; cbn in Hb; [set_solver|].
        destruct (_ <? _)%Z; [set_solver|]. apply elem_of_cons in Hb as [->|Hb]; [set_solver|]. destruct (IH Hb); set_solver. }
      destruct Hb' as [->|Hb']; [|by apply Hlt]. cbn.
      assert (Hek : (cmp e k < 0)%Z) by (apply cmp_neg; [done|lia]).
      eapply cmp_lt_trans; [done|exact Hek|]. lia.
Qed.
Lemma drop_sorted n l : sorted l -> sorted (drop_node n l).
Proof.
  induction l as [|e l IH]; [done|]. intros [Hs Hlt]%sorted_cons. unfold drop_node. rewrite filter_cons.
  destruct (decide _); [|by apply IH]. apply sorted_cons. split; [by apply IH|].
  intros b Hb. apply elem_of_list_filter in Hb. apply Hlt, Hb.
Qed.
Lemma put_length k e l : length (put cmp k e l) = S (length l).
Proof. induction l as [|[n d] l IH]; cbn; [done|]. destruct (_ <? _)%Z; cbn; [done|]. by rewrite IH. Qed.

Lemma exec_ok fuel s l o :
  inv s l -> sorted l -> legal cmp l o -> length l + 3 <= fuel ->
  exists s', exec cmp fuel s o = Some ((spec_step cmp l o).1, s')
    /\ inv s' (spec_step cmp l o).2 /\ sorted (spec_step cmp l o).2 /\ length (spec_step cmp l o).2 <= S (length l).
Proof.
  intros Hi Hs HL Hf. destruct o as [k d a junk|n|k].
  - cbn in HL. destruct HL as [Ha Hk]. destruct (inv_insert cmp TO fuel s l k d a junk Hi Hs Ha Hf) as (s' & E & Hi').
    exists s'. split; [exact E|]. split; [exact Hi'|]. cbn. destruct (lookup_key cmp k l) eqn:El; cbn.
    + split; [done|lia].
    + split; [by apply put_sorted|]. by rewrite put_length.
  - cbn in HL. destruct (inv_remove fuel s l n Hi HL ltac:(lia)) as (s' & E & Hi'). exists s'. cbn. rewrite E. cbn.
    split_and!; [done|done|by apply drop_sorted|]. unfold drop_node. pose proof (filter_length (fun e : positive * K => e.1 <> n) l). lia.
  - exists s. cbn. rewrite (inv_find cmp TO fuel s l k Hi Hs) by lia. cbn. split_and!; [done|done|done|lia].
Qed.
Lemma exec_all_ok os fuel s l :
  inv s l -> sorted l -> legal_run cmp l os -> length l + length os + 3 <= fuel ->
  exists s', exec_all cmp fuel s os = Some ((spec_run cmp l os).1, s')
    /\ inv s' (spec_run cmp l os).2 /\ sorted (spec_run cmp l os).2 /\ length (spec_run cmp l os).2 <= length l + length os.
Proof.
  revert s l; induction os as [|o os IH]; intros s l Hi Hs HL Hf; cbn -[exec].
  - exists s. split_and!; [done|done|done|lia].
  - destruct HL as [HL HLs]. cbn in Hf. destruct (exec_ok fuel s l o Hi Hs HL ltac:(lia)) as (s1 & E & Hi1 & Hs1 & Hlen).
    rewrite E. cbn -[exec]. destruct (spec_step cmp l o) as [r l1]. cbn in *.
    destruct (IH s1 l1 Hi1 Hs1 HLs ltac:(lia)) as (s2 & E2 & Hi2 & Hs2 & Hlen2). rewrite E2.
    destruct (spec_run cmp l1 os) as [rs l2]. cbn in *. exists s2. split_and!; [done|done|done|lia].
Qed.
End ord.

Section rb_cond.
Context {K : Type}.
Implicit Types (s : rbs K) (t : tree K) (C : ctx K) (l : list (positive * K)).
(** ** red-black conditions, directly on the heap *)
Definition color s (p : option positive) : option bool := match p with None => Some true | Some p => blk <$> rd s p end.
(** every path from [p] down to NULL crosses [n] black nodes *)
Inductive black_height s : option positive -> nat -> Prop :=
| bh_null : black_height s None 0
| bh_node p nn n : rd s p = Some nn -> black_height s (lft nn) n -> black_height s (rgt nn) n ->
    black_height s (Some p) (n + if blk nn then 1 else 0).
Definition no_red_red s : Prop := forall p nn, rd s p = Some nn -> blk nn = false ->
  color s (lft nn) = Some true /\ color s (rgt nn) = Some true.

Lemma rbt_black_height s pa t c n : rept (heap s) pa t -> rbt c n t -> black_height s (rp t) n.
Proof.
  revert pa c n; induction t as [|c0 p k tl IHl tr IHr]; intros pa c n H HR; inversion HR; simplify_eq; cbn.
  - constructor.
  - destruct H as (Hp & Hl & Hr). replace n with (n + 0) by lia.
    apply (bh_node s p _ n Hp); cbn; [eapply IHl|eapply IHr]; eauto.
  - destruct H as (Hp & Hl & Hr). replace (S n0) with (n0 + 1) by lia.
    apply (bh_node s p _ n0 Hp); cbn; [eapply IHl|eapply IHr]; eauto.
Qed.
Lemma rbt_color s pa t c n : rept (heap s) pa t -> rbt c n t -> color s (rp t) = Some c.
Proof. intros H HR. inversion HR; simplify_eq; cbn; [done| |]; destruct H as (Hp & _); unfold rd; by rewrite Hp. Qed.
Lemma rbt_no_red_red s pa t c n : rept (heap s) pa t -> rbt c n t ->
  forall p nn, p ∈ ids t -> rd s p = Some nn -> blk nn = false -> color s (lft nn) = Some true /\ color s (rgt nn) = Some true.
Proof.
  revert pa c n; induction t as [|c0 p0 k tl IHl tr IHr]; intros pa c n H HR p nn Hp Hrd Hb; cbn in Hp; [set_solver|].
  destruct H as (H0 & Hl & Hr). inversion HR; simplify_eq.
  - apply elem_of_cons in Hp as [->|[Hp|Hp]%elem_of_app]; [|eauto|eauto].
    unfold rd in Hrd. rewrite H0 in Hrd. simplify_eq. cbn. split; eapply rbt_color; eauto.
  - apply elem_of_cons in Hp as [->|[Hp|Hp]%elem_of_app]; [|eauto|eauto].
    unfold rd in Hrd. rewrite H0 in Hrd. simplify_eq.
Qed.
Lemma inv_rb s l : inv s l -> color s (root s) = Some true /\ no_red_red s /\ exists n, black_height s (root s) n.
Proof.
  intros (t & H & <- & (N & HN) & Hout). pose proof H as (E & Ht & _). rewrite E. split_and!.
  - by eapply rbt_color.
  - intros p nn Hp Hb. eapply rbt_no_red_red; eauto. destruct (decide (p ∈ ids t)) as [|Hn]; [done|].
    apply Hout in Hn. unfold rd in Hp. congruence.
  - exists N. by eapply rbt_black_height.
Qed.
Lemma inv_find_fast (cmp : K -> K -> Z) s l k : total_order cmp -> inv s l -> strictly_sorted cmp l ->
  rbtree_find cmp (2 * Nat.log2 (length l + 1)) s k = Some (lookup_key cmp k l).
Proof.
  intros TO (t & H & <- & (N & HN) & _) Hs. unfold rbtree_find. pose proof H as (-> & Ht & _).
  rewrite <- (tfind_lookup cmp TO) by done. eapply find_loop_ok; [exact Ht|]. pose proof (rbt_height _ _ _ HN) as Hh. cbn in Hh. pose proof (rbt_size _ _ _ HN) as HS.
  assert (N <= Nat.log2 (length (inorder t) + 1)). { apply Nat.log2_le_pow2; [lia|exact HS]. } lia.
Qed.
End rb_cond.
