(** rb_erase with summaries: the proof follows RbRemove. *)
From Verif Require Import RbModel RbZip RbRot RbInsert RbErase RbRemove RbSpec RbHist RbNav RbAugModel RbAugIns RbAugPath RbAugErase.

Section rb_aug_remove.
Context {K V : Type} (F : K -> option V -> option V -> V) (sm : positive -> V) (n0 : positive).
Implicit Types (s : rbs K) (t : tree K) (C : ctx K) (h : gmap positive (node K)).
Notation allc := (allc F sm).
Notation sibs := (sibs F sm).
Notation offe := (offe F sm n0).
Notation lowc := (lowc F sm n0).
Notation rebalE := (rebalE F sm n0).

(** what a completed removal achieves *)
Definition erasedE s t0 (want : list (positive * K)) (r : option (rbs K)) : Prop :=
  exists s' t', r = Some s' /\ rep s' t' /\ inorder t' = want
     /\ (exists N, rbt true N t') /\ offe t' /\ same_out s s' t0.

Lemma erasedE_of_rebal s s1 t0 t1 r :
  same_out s s1 t0 -> (forall q, q ∈ ids t1 -> q ∈ ids t0) -> rebalE s1 t1 r -> erasedE s t0 (inorder t1) r.
Proof.
  intros So Hsub (s' & t' & E & Hr & Hi & HN & HO & So'). exists s', t'. split_and!; try done.
  intros q Hq. rewrite So'; [by apply So|]. intros Hq'. by apply Hq, Hsub.
Qed.

Lemma erase_oneE fuel s C c p k l r N t :
  rep s (plug C (Node c p k l r)) -> rbt true N (plug C (Node c p k l r)) ->
  (l = Leaf /\ t = r) \/ (r = Leaf /\ t = l) ->
  length C + 2 <= fuel -> lowc C t -> sibs C ->
  erasedE s (plug C (Node c p k l r)) (lo C ++ inorder l ++ inorder r ++ hi C)
    (s ← set_parent_opt s (rp t) (pc C); s ← replace_child s (pc C) p (rp t);
     if c then erase_color fuel s (rp t) (pc C) else Some s).
Proof.
  intros H HN Hcase Hf HLo HSi.
  pose proof (proj1 (rep_plug s C _) H) as (Hn & HC & ND). destruct s as [h rt]. cbn [heap root] in *.
  destruct (rbt_plug_ctx _ _ _ HN) as (cc & n & Hrb & HRC).
  cbn in Hn. destruct Hn as (Hp & Hl & Hr).
  assert (Ht : rept h (Some p) t) by (destruct Hcase as [[_ ->]|[_ ->]]; done).
  assert (Eids : ids l ++ ids r = ids t).
  { destruct Hcase as [[-> ->]|[-> ->]]; cbn; [done|by rewrite app_nil_r]. }
  assert (Eino : inorder l ++ inorder r = inorder t).
  { destruct Hcase as [[-> ->]|[-> ->]]; cbn; [done|by rewrite app_nil_r]. }
  cbn in ND. rewrite Eids in ND. apply NoDup_cons in ND as (Np & ND). apply NoDup_app in ND as (NDt & Ntc & NDC).
  destruct (rept_set_parent h rt (Some p) (pc C) t Ht NDt) as ([h1 rt1] & E1 & Ht1 & Ert & Hs1).
  cbn in Ert, Ht1, Hs1. subst rt1.
  assert (HC1 : repc h1 rt C (Some p)).
  { eapply repc_frame; [|exact HC]. intros q Hq. apply Hs1. intros E. apply rp_elem in E. by apply (Ntc q). }
  assert (NpC : p ∉ idsc C) by set_solver.
  destruct (repc_replace h1 rt C p (rp t) HC1 NpC NDC) as ([h2 rt2] & E2 & HC2 & Hs2 & _).
  cbn [heap root] in *. rewrite E1. cbn -[upd rd replace_child erase_color]. rewrite E2.
  cbn -[upd rd replace_child erase_color].
  assert (H2 : rep (mks h2 rt2) (plug C t)).
  { apply rep_plug. cbn. split_and!; [|done|].
    - eapply rept_frame; [|exact Ht1]. intros q Hq. apply Hs2. intros E. apply pc_elem in E. by apply (Ntc q).
    - apply NoDup_app. split_and!; try done. }
  assert (So : same_out (mks h rt) (mks h2 rt2) (plug C (Node c p k l r))).
  { intros q Hq. rewrite ids_plug in Hq. cbn in Hq. rewrite Eids in Hq. cbn [heap].
    rewrite Hs2. 2: { intros E. apply pc_elem in E. set_solver. }
    rewrite Hs1; [done|]. intros E. apply rp_elem in E. set_solver. }
  assert (Hsub : forall q, q ∈ ids (plug C t) -> q ∈ ids (plug C (Node c p k l r))).
  { intros q. rewrite !ids_plug. cbn. rewrite Eids. set_solver. }
  assert (Ew : lo C ++ inorder l ++ inorder r ++ hi C = inorder (plug C t)).
  { rewrite inorder_plug, <- Eino. by rewrite <- app_assoc. }
  rewrite Ew. destruct c.
  - eapply erasedE_of_rebal; [exact So|exact Hsub|].
    inversion Hrb; simplify_eq. destruct Hcase as [[-> ->]|[-> ->]].
    + eapply erase_colorE; eauto.
    + eapply erase_colorE; eauto.
  - eexists _, (plug C t). split_and!; [done|done|done| |by apply lowc_plug|done].
    inversion Hrb; simplify_eq.
    eapply (rbt_plug C true n); [|by eapply rbc_weaken]. destruct Hcase as [[-> ->]|[-> ->]]; done.
Qed.

(** assembling the result of the two-children case *)
Lemma erase_two_fixE fuel s s8 C c p k l r D sc sp sk sr N :
  r = plug D (Node sc sp sk Leaf sr) -> Forall isFL D ->
  rbt true N (plug C (Node c p k l r)) ->
  rep s8 (plug C (Node c sp sk l (plug D sr))) ->
  same_out s s8 (plug C (Node c p k l r)) ->
  length C + length D + 3 <= fuel ->
  lowc (D ++ FR c sp sk l :: C) sr -> sibs (D ++ FR c sp sk l :: C) ->
  erasedE s (plug C (Node c p k l r)) (lo C ++ inorder l ++ inorder r ++ hi C)
    (if sc then erase_color fuel s8 (rp sr) (Some (match D with [] => sp | f :: _ => fp f end)) else Some s8).
Proof.
  intros -> HD HN H8 So Hf HLo HSi.
  assert (HE : plug C (Node c sp sk l (plug D sr)) = plug (D ++ FR c sp sk l :: C) sr) by by rewrite plug_app.
  assert (HE0 : plug C (Node c p k l (plug D (Node sc sp sk Leaf sr))) = plug (D ++ FR c p k l :: C) (Node sc sp sk Leaf sr))
    by by rewrite plug_app.
  pose proof HN as HN'. rewrite HE0 in HN'.
  destruct (rbt_plug_ctx _ _ _ HN') as (cc & n & Hrb & HRC).
  apply (rbc_rename _ _ _ _ _ sp sk) in HRC.
  assert (HloD : lo D = []).
  { clear -HD. induction D as [|f D IH]; cbn; [done|]. apply Forall_cons in HD as [Hf HD]. destruct f; [|done]. by apply IH. }
  assert (Ew : lo C ++ inorder l ++ inorder (plug D (Node sc sp sk Leaf sr)) ++ hi C
             = inorder (plug C (Node c sp sk l (plug D sr)))).
  { rewrite !inorder_plug. cbn. rewrite !inorder_plug, HloD. cbn. rewrite <- !app_assoc. cbn. by rewrite <- !app_assoc. }
  assert (Hsub : forall q, q ∈ ids (plug C (Node c sp sk l (plug D sr))) ->
      q ∈ ids (plug C (Node c p k l (plug D (Node sc sp sk Leaf sr))))).
  { intros q. rewrite !ids_plug. cbn. rewrite !ids_plug. cbn. set_solver. }
  rewrite Ew. destruct sc.
  - eapply erasedE_of_rebal; [exact So|exact Hsub|].
    assert (Epc : Some (match D with [] => sp | f :: _ => fp f end) = pc (D ++ FR c sp sk l :: C)) by by destruct D.
    rewrite Epc, HE. rewrite HE in H8. inversion Hrb as [| |? cl cr ? ? ? ? Hl0 Hr0]; simplify_eq.
    eapply erase_colorE; [exact H8|exact Hr0|exact HRC| |exact HLo|exact HSi]. rewrite app_length. cbn. lia.
  - eexists _, _. split_and!; [done|exact H8|done| |rewrite HE; by apply lowc_plug|done].
    rewrite HE. inversion Hrb as [|? ? ? ? ? Hl0 Hr0|]; simplify_eq.
    eapply rbt_plug; [exact Hr0|]. by eapply rbc_weaken.
Qed.

Lemma erase_twoE fuel s C c p k l r D sc sp sk sr N :
  rep s (plug C (Node c p k l r)) -> rbt true N (plug C (Node c p k l r)) ->
  l <> Leaf -> r = plug D (Node sc sp sk Leaf sr) -> Forall isFL D ->
  length C + length D + 3 <= fuel ->
  lowc (D ++ FR c sp sk l :: C) sr -> sibs (D ++ FR c sp sk l :: C) ->
  erasedE s (plug C (Node c p k l r)) (lo C ++ inorder l ++ inorder r ++ hi C) (erase fuel s p).
Proof.
  intros H HN Hl0 Er HD Hf HLo HSi.
  pose proof (proj1 (rep_plug s C _) H) as (Hn & HC & ND).
  unfold erase. rewrite (rep_rd _ _ _ _ _ _ _ H). cbn [mbind option_bind lft rgt par].
  assert (El : exists lc lp lk ll lr, l = Node lc lp lk ll lr) by (destruct l; naive_solver). clear Hl0.
  destruct El as (lc & lp & lk & ll & lr & El).
  assert (Hlrp : rp l = Some lp) by (by rewrite El).
  assert (Hx : exists x, rp r = Some x).
  { subst r. clear. assert (G : forall t, t <> Leaf -> exists y, rp (plug D t) = Some y).
    { induction D as [|f D' IH]; intros t Ht; cbn; [destruct t; [done|eauto]|]. apply IH. by destruct f. }
    by apply G. }
  destruct Hx as [x Hx]. rewrite Hx. rewrite Hlrp. cbn [mbind option_bind].
  assert (Hgo : go_left fuel s x = Some sp).
  { eapply (go_left_ok fuel s (FR c p k l :: C) D); [|exact HD| |lia].
    - rewrite <- Er. exact H.
    - by rewrite <- Er. }
  rewrite Hgo. cbn [mbind option_bind].
  destruct s as [h rt]. cbn [heap root] in *.
  destruct Hn as (Hp & Hl & Hr).
  cbn [ids app] in ND. apply NoDup_cons in ND as (Np & ND). rewrite <- (assoc_L (++)) in ND.
  apply NoDup_app in ND as (NDl & Nl & ND). apply NoDup_app in ND as (NDr & Nr & NDC).
  assert (Hspr : sp ∈ ids r). { rewrite Er, ids_plug. cbn. set_solver. }
  assert (Hlpl : lp ∈ ids l) by (by apply rp_elem).
  assert (NpC : p ∉ idsc C) by set_solver.
  destruct (repc_replace h rt C p (Some sp) HC NpC NDC) as ([h1 rt1] & E1 & HC1 & Hs1 & _).
  cbn [heap root] in *. rewrite E1. cbn [mbind option_bind].
  assert (HpcC : forall q, q ∉ idsc C -> h1 !! q = h !! q).
  { intros q Hq. apply Hs1. intros E. by apply pc_elem in E. }
  assert (Hr1 : rept h1 (Some p) r).
  { eapply rept_frame; [|exact Hr]. intros q Hq. apply HpcC. intros E. by apply (Nr q). }
  assert (Hl1 : rept h1 (Some p) l).
  { eapply rept_frame; [|exact Hl]. intros q Hq. apply HpcC. intros E. apply (Nl q); set_solver. }
  assert (Hp1 : h1 !! p = Some (mkn (pc C) c (Some x) (Some lp) k)).
  { rewrite HpcC by done. rewrite Hp, Hx, Hlrp. done. }
  clear Hs1.
  assert (Hsplp : sp <> lp). { intros ->. apply (Nl lp); set_solver. }
  assert (HspC : sp ∉ idsc C) by (by apply Nr).
  assert (Hspp : sp <> p) by set_solver.
  assert (Hspl : sp ∉ ids l). { intros E. apply (Nl _ E). set_solver. }
  assert (Hlpp : lp <> p) by set_solver.
  (* the common tail once the successor hangs over the old right subtree *)
  assert (Tail : forall h5 t5,
    (exists n5, h5 !! sp = Some n5 /\ rgt n5 = rp t5 /\ dat n5 = sk) ->
    rept h5 (Some sp) t5 -> t5 = plug D sr ->
    (forall q, q ∉ ids r -> h5 !! q = h1 !! q) ->
    erasedE (mks h rt) (plug C (Node c p k l r)) (lo C ++ inorder l ++ inorder r ++ hi C)
      (on ← rd (mks h5 rt1) p;
       s ← upd (mks h5 rt1) sp (λ m, w_blk (blk on) (w_par (par on) m));
       s ← upd s sp (w_lft (lft on));
       l ← lft on;
       s ← upd s l (w_par (Some sp));
       if (sc : bool) then erase_color fuel s (rp sr) (Some (match D with [] => sp | f :: _ => fp f end)) else Some s)).
  { intros h5 t5 (n5 & Hsp5 & Hrgt5 & Hdat5) Ht5 Et5 Hs5.
    assert (Hids5 : forall q, q ∈ ids t5 -> q ∈ ids r /\ q <> sp).
    { intros q. rewrite Et5, Er, !ids_plug. intros Hq. split.
      - clear -Hq. cbn in *. set_solver.
      - intros ->. rewrite Er, ids_plug in NDr. cbn in NDr. apply NoDup_cons in NDr as [ND' _]. set_solver. }
    assert (Hp5 : h5 !! p = Some (mkn (pc C) c (Some x) (Some lp) k)) by (rewrite Hs5; [done|set_solver]).
    assert (Hlp5 : h5 !! lp = Some (mkn (Some p) lc (rp lr) (rp ll) lk)).
    { rewrite Hs5; [rewrite El in Hl1; apply Hl1|]. intros E. apply (Nl lp); set_solver. }
    rewrite (rd_some _ _ _ _ Hp5). cbn [mbind option_bind blk par lft].
    rewrite (upd_some _ _ _ _ _ Hsp5). cbn [mbind option_bind blk par lft].
    erewrite upd_some by apply lookup_insert. cbn [mbind option_bind blk par lft].
    erewrite upd_some by (rewrite !lookup_insert_ne by done; exact Hlp5). cbn [mbind option_bind].
    rewrite insert_insert.
    eapply (erase_two_fixE fuel _ _ C c p k l r D sc sp sk sr N); [exact Er|exact HD|exact HN| | |exact Hf|exact HLo|exact HSi].
    - rewrite <- Et5. apply rep_plug. cbn [heap root].
      split_and!.
      + cbn [rept rp ids]. split_and!.
        * rewrite lookup_insert_ne by done. rewrite lookup_insert. f_equal.
          destruct n5 as [a1 a2 a3 a4 a5]. cbn in *. unfold w_lft, w_blk, w_par. cbn. by subst.
        * destruct (rept_set_parent h5 rt1 (Some p) (Some sp) l) as ([h9 rt9] & E9 & Hl9 & _ & Hs9).
          { eapply rept_frame; [|exact Hl1]. intros q Hq. apply Hs5. intros E. apply (Nl q); set_solver. }
          { done. }
          rewrite Hlrp in E9, Hs9. cbn [set_parent_opt] in E9. rewrite (upd_some _ _ _ _ _ Hlp5) in E9.
          injection E9 as <- <-. cbn [heap] in *.
          eapply rept_frame; [|exact Hl9]. intros q Hq.
          destruct (decide (q = lp)) as [->|Hne]; [by rewrite !lookup_insert|].
          rewrite !lookup_insert_ne by congruence. done.
        * eapply rept_frame; [|exact Ht5]. intros q Hq. destruct (Hids5 q Hq) as [Hq1 Hq2].
          rewrite lookup_insert_ne. 2: { intros <-. apply (Nl lp); set_solver. }
          by rewrite lookup_insert_ne.
      + cbn [rp]. eapply repc_frame; [|exact HC1]. intros q Hq.
        rewrite lookup_insert_ne. 2: { intros <-. apply (Nl lp); set_solver. }
        rewrite lookup_insert_ne by (intros <-; done). apply Hs5. intros E. by apply (Nr q).
      + cbn [ids app]. apply NoDup_cons. split; [|rewrite <- (assoc_L (++)); apply NoDup_app; split_and!].
        * rewrite <- (assoc_L (++)), !elem_of_app. intros [E|[E|E]]; [done| |done]. by destruct (Hids5 _ E).
        * exact NDl.
        * intros q Hq Hq'. apply (Nl q Hq). apply elem_of_app; apply elem_of_app in Hq' as [E|E]; [left; by apply Hids5|by right].
        * apply NoDup_app. split_and!; [|intros q Hq; apply Nr; by apply Hids5|done].
          rewrite Er, ids_plug in NDr. rewrite Et5, ids_plug. cbn in NDr. by apply NoDup_cons in NDr as [_ ?].
    - intros q Hq. rewrite ids_plug in Hq. cbn [ids] in Hq. cbn [heap].
      rewrite lookup_insert_ne by set_solver. rewrite lookup_insert_ne by set_solver.
      rewrite Hs5 by set_solver. apply HpcC. set_solver. }
  destruct D as [|g D].
  - (* the successor is the right child itself *)
    cbn in Er. rewrite Er in Hx, Hr1. cbn in Hx, Hr1. injection Hx as <-. destruct Hr1 as (Hsp1 & _ & Hsr1).
    rewrite (rd_some _ _ _ _ Hsp1). cbn [mbind option_bind blk par lft rgt].
    rewrite decide_True by done. cbn [mbind option_bind].
    apply (Tail h1 sr); try done. eexists; split; [exact Hsp1|]; done.
  - destruct g as [gc gp gk gs|]; [|by apply Forall_cons in HD as [? _]].
    rewrite Er in Hr1. pose proof NDr as NDr'. rewrite Er in NDr'.
    destruct (detach_min h1 rt1 (Some p) D gc gp gk gs sc sp sk sr Hr1 NDr') as (h2 & h3 & E2 & E3 & Hr3 & Hs3 & Erp).
    assert (Hsp1 : h1 !! sp = Some (mkn (Some gp) sc (rp sr) None sk)).
    { destruct (proj1 (repcd_plug h1 _ (Some p) (FL gc gp gk gs :: D) (Node sc sp sk Leaf sr)) (conj eq_refl Hr1)) as ((G & _) & _).
      exact G. }
    rewrite (rd_some _ _ _ _ Hsp1). cbn [mbind option_bind blk par lft rgt].
    assert (Hgpr : gp ∈ ids r). { rewrite Er, ids_plug. clear. cbn. set_solver. }
    rewrite decide_False by (intros ->; clear -Np Hgpr; set_solver).
    rewrite E2. cbn [mbind option_bind]. rewrite E3. cbn [mbind option_bind].
    set (t5 := plug (FL gc gp gk gs :: D) sr) in *.
    rewrite <- Er, Hx in Erp.
    assert (Hids5 : forall q, q ∈ ids t5 -> q ∈ ids r /\ q <> sp).
    { intros q. unfold t5. rewrite Er, !ids_plug. intros Hq. split.
      - clear -Hq. cbn in *. set_solver.
      - intros ->. rewrite ids_plug in NDr'. apply NoDup_app in NDr' as (ND1 & ND2 & ND3). cbn [ids app] in ND1, ND2.
        apply NoDup_cons in ND1 as [ND1 _]. apply elem_of_app in Hq as [E|E]; [set_solver|]. apply (ND2 sp); set_solver. }
    assert (Hp3 : h3 !! p = Some (mkn (pc C) c (Some x) (Some lp) k)).
    { rewrite Hs3; [done|]. intros E. apply Hids5 in E. clear -E Np. set_solver. }
    assert (Hsp3 : h3 !! sp = Some (mkn (Some gp) sc (rp sr) None sk)).
    { rewrite Hs3; [done|]. intros E. apply Hids5 in E. by destruct E. }
    rewrite (rd_some _ _ _ _ Hp3). cbn [mbind option_bind blk par lft rgt].
    rewrite (upd_some _ _ _ _ _ Hsp3). cbn [mbind option_bind blk par lft rgt].
    assert (Hr4 : rept (<[sp:=w_rgt (Some x) (mkn (Some gp) sc (rp sr) None sk)]> h3) (Some p) t5).
    { apply rept_insert_ne; [|done]. intros E. apply Hids5 in E. by destruct E. }
    assert (NDt5 : NoDup (ids t5)).
    { unfold t5. rewrite ids_plug in NDr' |- *. cbn [ids app] in NDr'. by apply NoDup_cons in NDr' as [_ ?]. }
    destruct (rept_set_parent _ rt1 (Some p) (Some sp) t5 Hr4 NDt5) as ([h5 rt5] & E5 & Ht5 & Ert & Hs5).
    cbn [heap root] in *. subst rt5. rewrite Erp in E5. cbn [set_parent_opt] in E5. rewrite E5.
    cbn [mbind option_bind].
    assert (Hxt5 : x ∈ ids t5) by (by apply rp_elem).
    assert (Hne5 : forall q, q ∉ ids r \/ q = sp -> rp t5 ≠ Some q).
    { intros q Hq E. assert (x = q) as <- by congruence. apply Hids5 in Hxt5. destruct Hxt5. by destruct Hq. }
    apply (Tail h5 t5); try done.
    + eexists. split; [rewrite (Hs5 sp (Hne5 sp (or_intror eq_refl))); apply lookup_insert|].
      split; [|done]. symmetry. exact Erp.
    + intros q Hq. rewrite (Hs5 q (Hne5 q (or_introl Hq))).
      rewrite lookup_insert_ne by (intros <-; done). apply Hs3. intros E. apply Hids5 in E. by destruct E.
Qed.

End rb_aug_remove.
