(** C60: rb_replace_node and rbtree_find2 (the two remaining entry points of krbtree.c).
    Model: RbModel.v [replace_node], [rbtree_find2]. *)
From Verif Require Import RbModel RbZip RbRot RbInsert RbErase RbRemove RbSpec RbHist RbNav.

(** specification: the same list with handle [v] renamed to [n] (the data word is copied with the node) *)
Definition swap_node {K} (v n : positive) (l : list (positive * K)) : list (positive * K) :=
  (fun e => (if decide (e.1 = v) then n else e.1, e.2)) <$> l.

(** the caller's program around it: malloc the new node ([j]: its uninitialised contents), replace, free
    the old node; any access to the old node afterwards would fail in the model *)
Definition replace_and_free {K} (s : rbs K) (v n : positive) (j : node K) : option (rbs K) :=
  s ← replace_node (mks (<[n := j]> (heap s)) (root s)) v n;
  Some (mks (delete v (heap s)) (root s)).

Section rb_replace.
Context {K : Type}.
Implicit Types (s : rbs K) (t : tree K) (C : ctx K) (l : list (positive * K)).

Lemma swap_app v n l1 l2 : swap_node v n (l1 ++ l2) = swap_node v n l1 ++ swap_node v n l2.
Proof. apply fmap_app. Qed.
Lemma swap_id v n l : v ∉ l.*1 -> swap_node v n l = l.
Proof.
  induction l as [|[a x] l IH]; cbn; [done|]. intros H. rewrite decide_False by set_solver.
  change ((a, x) :: swap_node v n l = (a, x) :: l). by rewrite IH by set_solver.
Qed.

Lemma replace_node_ok s C c v k tl tr n :
  rep s (plug C (Node c v k tl tr)) -> n ∉ ids (plug C (Node c v k tl tr)) ->
  (exists j, heap s !! n = Some j) ->
  exists s', replace_node s v n = Some s' /\ rep s' (plug C (Node c n k tl tr))
    /\ (forall q, q ∉ ids (plug C (Node c v k tl tr)) -> q <> n -> heap s' !! q = heap s !! q).
Proof.
  destruct s as [h rt]. intros Hrep Hn [j Hj].
  assert (Hn' : n ∉ v :: (ids tl ++ ids tr) ++ idsc C).
  { intros Hin. apply Hn. rewrite ids_plug. cbn. exact Hin. }
  assert (Hv0 := rep_rd _ _ _ _ _ _ _ Hrep). unfold rd in Hv0; cbn [heap] in Hv0, Hj.
  apply rep_plug in Hrep as (Ht & HC & ND). cbn [heap root] in *. cbn in Ht. destruct Ht as (Hv & Hl & Hr).
  cbn in ND. apply NoDup_cons in ND as [Hvn ND]. rewrite <- app_assoc in ND.
  assert (ND' := ND). apply NoDup_app in ND' as (NDl & Dl & ND'). apply NoDup_app in ND' as (NDr & Dr & NDC).
  assert (Fv1 : v ∉ ids tl) by (intros ?; apply Hvn; rewrite !elem_of_app; auto).
  assert (Fv2 : v ∉ ids tr) by (intros ?; apply Hvn; rewrite !elem_of_app; auto).
  assert (Fv3 : v ∉ idsc C) by (intros ?; apply Hvn; rewrite !elem_of_app; auto).
  assert (Fn0 : n <> v) by (intros ->; apply Hn'; constructor).
  assert (Fn1 : n ∉ ids tl) by (intros ?; apply Hn'; constructor; rewrite !elem_of_app; auto).
  assert (Fn2 : n ∉ ids tr) by (intros ?; apply Hn'; constructor; rewrite !elem_of_app; auto).
  assert (Fn3 : n ∉ idsc C) by (intros ?; apply Hn'; constructor; rewrite !elem_of_app; auto).
  assert (Hpcv : pc C <> Some v) by (intros E; apply Fv3; by apply pc_elem).
  assert (Hpcn : pc C <> Some n) by (intros E; apply Fn3; by apply pc_elem).
  unfold replace_node. rewrite (rd_some h rt v _ Hv). cbn -[rd upd set_parent_opt replace_child].
  destruct (repc_replace h rt C v (Some n) HC Fv3 NDC) as ([h1 rt1] & E1 & HC1 & Hh1 & _). rewrite E1.
  cbn -[rd upd set_parent_opt]. cbn [heap root] in *.
  erewrite (rd_some h1 rt1 v) by (by rewrite (Hh1 v Hpcv), Hv). cbn -[rd upd set_parent_opt].
  assert (Hl1 : rept h1 (Some v) tl).
  { eapply rept_frame; [|exact Hl]. intros q Hq. apply Hh1. intros E. apply pc_elem in E. eapply Dl; [exact Hq|]. set_solver. }
  assert (Hr1 : rept h1 (Some v) tr).
  { eapply rept_frame; [|exact Hr]. intros q Hq. apply Hh1. intros E. apply pc_elem in E. by eapply Dr. }
  destruct (rept_set_parent h1 rt1 (Some v) (Some n) tl Hl1 NDl) as ([h2 rt2] & E2 & Hl2 & Hrt2 & Hh2). rewrite E2.
  cbn -[rd upd set_parent_opt]. cbn [heap root] in *. subst rt2.
  assert (Ol : forall q, q ∉ ids tl -> h2 !! q = h1 !! q).
  { intros q Hq. apply Hh2. intros E. apply Hq. by apply rp_elem. }
  erewrite (rd_some h2 rt1 v) by (by rewrite (Ol v Fv1), (Hh1 v Hpcv), Hv). cbn -[rd upd set_parent_opt].
  assert (Hr2 : rept h2 (Some v) tr).
  { eapply rept_frame; [|exact Hr1]. intros q Hq. apply Ol. intros Hq'. eapply Dl; [exact Hq'|]. set_solver. }
  destruct (rept_set_parent h2 rt1 (Some v) (Some n) tr Hr2 NDr) as ([h3 rt3] & E3 & Hr3 & Hrt3 & Hh3). rewrite E3.
  cbn -[rd upd]. cbn [heap root] in *. subst rt3.
  assert (Or : forall q, q ∉ ids tr -> h3 !! q = h2 !! q).
  { intros q Hq. apply Hh3. intros E. apply Hq. by apply rp_elem. }
  erewrite (rd_some h3 rt1 v) by (by rewrite (Or v Fv2), (Ol v Fv1), (Hh1 v Hpcv), Hv). cbn -[rd upd].
  assert (Hn3 : h3 !! n = Some j) by (by rewrite (Or n Fn2), (Ol n Fn1), (Hh1 n Hpcn)).
  rewrite (upd_some _ _ _ _ _ Hn3). eexists; split; [done|]. split.
  - apply rep_plug. cbn [heap root]. cbn. rewrite lookup_insert. split_and!.
    + done.
    + apply rept_insert_ne; [done|]. eapply rept_frame; [|exact Hl2]. intros q Hq. apply Or. intros Hq'. eapply Dl; [exact Hq|]. set_solver.
    + apply rept_insert_ne; [done|done].
    + apply repc_insert_ne; [done|]. eapply repc_frame; [|exact HC1]. intros q Hq.
      rewrite Or, Ol; [done| |]; intros Hq'; [eapply Dl; [exact Hq'|]|eapply Dr; [exact Hq'|]]; set_solver.
    + apply NoDup_cons. split; [intros Hin; apply Hn'; constructor; exact Hin|]. by rewrite <- app_assoc.
  - intros q Hq Hqn. cbn [heap].
    assert (Hq' : q ∉ v :: (ids tl ++ ids tr) ++ idsc C).
    { intros Hin. apply Hq. rewrite ids_plug. cbn. exact Hin. }
    rewrite lookup_insert_ne by done. rewrite Or, Ol, Hh1; [done| | |].
    + intros E. apply pc_elem in E. apply Hq'. constructor. rewrite !elem_of_app. auto.
    + intros ?. apply Hq'. constructor. rewrite !elem_of_app. auto.
    + intros ?. apply Hq'. constructor. rewrite !elem_of_app. auto.
Qed.

Lemma inv_replace s l v n j :
  inv s l -> v ∈ l.*1 -> n ∉ l.*1 ->
  exists s', replace_and_free s v n j = Some s' /\ inv s' (swap_node v n l).
Proof.
  intros (t & Hrep & <- & (N & HN) & Hout) Hv Hn.
  assert (Hvt : v ∈ ids t) by (by rewrite ids_inorder).
  assert (Hnt : n ∉ ids t) by (by rewrite ids_inorder).
  destruct (focus t v Hvt) as (C & c & k & tl & tr & ->).
  destruct s as [h rt].
  assert (Hrep1 : rep (mks (<[n:=j]> h) rt) (plug C (Node c v k tl tr))).
  { destruct Hrep as (H1 & H2 & H3). split_and!; [done| |done]. cbn [heap]. by apply rept_insert_ne. }
  destruct (replace_node_ok _ _ _ _ _ _ _ n Hrep1 Hnt) as (s1 & E1 & H1 & Ho).
  { exists j. cbn. by rewrite lookup_insert. }
  unfold replace_and_free. cbn [heap root]. rewrite E1. eexists; split; [done|].
  assert (Hvn : v ∉ ids (plug C (Node c n k tl tr))).
  { destruct Hrep as (_ & _ & ND). rewrite ids_plug in ND, Hnt, Hvt |- *. cbn in ND, Hnt |- *.
    apply NoDup_cons in ND as [H _]. intros [->|Hin]%elem_of_cons; [apply Hnt; constructor|done]. }
  exists (plug C (Node c n k tl tr)). split_and!.
  - destruct H1 as (R1 & R2 & R3). split_and!; [done| |done]. cbn [heap].
    eapply rept_frame; [|exact R2]. intros p Hp. rewrite lookup_delete_ne; [done|]. intros ->. done.
  - assert (Hcons : forall l, swap_node v n ((v, k) :: l) = (n, k) :: swap_node v n l).
    { intros l. unfold swap_node. rewrite fmap_cons. cbn. by rewrite decide_True. }
    rewrite !inorder_plug. cbn [inorder]. rewrite !swap_app, Hcons.
    destruct Hrep as (_ & _ & ND). rewrite ids_inorder, inorder_plug in ND. cbn [inorder] in ND.
    rewrite !fmap_app, fmap_cons in ND. cbn [fst] in ND.
    assert (NDx : v ∉ (lo C).*1 /\ v ∉ (inorder tl).*1 /\ v ∉ (inorder tr).*1 /\ v ∉ (hi C).*1).
    { apply NoDup_app in ND as (_ & D1 & ND). rewrite <- app_assoc in ND. apply NoDup_app in ND as (_ & D2 & ND). cbn in ND.
      apply NoDup_cons in ND as [D3 _].
      split_and!; intros Hin.
      - eapply D1; [exact Hin|]. rewrite !elem_of_app. left. right. constructor.
      - eapply D2; [exact Hin|]. constructor.
      - apply D3. rewrite elem_of_app. auto.
      - apply D3. rewrite elem_of_app. auto. }
    destruct NDx as (? & ? & ? & ?). by rewrite !swap_id by done.
  - destruct (rbt_plug_ctx _ _ _ HN) as (c0 & n0 & Hrb0 & HRC0).
    eapply rbt_plug; [|exact HRC0]. inversion Hrb0; simplify_eq; econstructor; eauto.
  - intros q Hq. cbn [heap]. destruct (decide (q = v)) as [->|Hqv]; [apply lookup_delete|].
    rewrite lookup_delete_ne by done.
    assert (Hqn : q <> n). { intros ->. apply Hq. rewrite ids_plug. cbn. constructor. }
    assert (Hq' : q ∉ ids (plug C (Node c v k tl tr))).
    { rewrite ids_plug in Hq |- *. cbn in Hq |- *. intros [->|Hin]%elem_of_cons; [done|]. apply Hq. by constructor. }
    rewrite Ho by done. cbn [heap]. rewrite lookup_insert_ne by done. by apply Hout.
Qed.
End rb_replace.

Section find2.
Context {K : Type} (cmp : K -> K -> Z).
Hypothesis TO : total_order cmp.
Implicit Types (s : rbs K) (t : tree K) (C : ctx K) (l : list (positive * K)).

(** what the caller may conclude from the node [n] and the comparison result [r] *)
Definition place k (l : list (positive * K)) (n : positive) (r : Z) : Prop :=
  exists l1 d l2, l = l1 ++ (n, d) :: l2 /\ r = cmp k d
    /\ ((r <= 0)%Z -> Forall (fun e => (cmp k e.2 > 0)%Z) l1)
    /\ ((r >= 0)%Z -> Forall (fun e => (cmp k e.2 < 0)%Z) l2).

Lemma find2_loop_ok fuel s k C t last res :
  rep s (plug C t) -> height t <= fuel -> strictly_sorted cmp (inorder (plug C t)) ->
  Forall (fun e => (cmp k e.2 > 0)%Z) (lo C) -> Forall (fun e => (cmp k e.2 < 0)%Z) (hi C) ->
  match C with
  | [] => last = None /\ res = None
  | FL _ p d _ :: _ => last = Some p /\ res = Some (cmp k d) /\ (cmp k d < 0)%Z
  | FR _ p d _ :: _ => last = Some p /\ res = Some (cmp k d) /\ (cmp k d > 0)%Z
  end ->
  exists o r, find2_loop cmp fuel s k (rp t) last res = Some (o, r) /\
    match o, r with
    | None, None => C = [] /\ t = Leaf
    | Some n, Some r => place k (inorder (plug C t)) n r /\
        exists nn, rd s n = Some nn /\ ((r < 0)%Z -> lft nn = None) /\ ((r > 0)%Z -> rgt nn = None)
    | _, _ => False
    end.
Proof.
  revert C fuel last res; induction t as [|c p d tl IHl tr IHr]; intros C fuel last res Hrep Hf Hs Flo Fhi HC.
  - destruct C as [|[c p d sib|c p d sib] C].
    + destruct HC as [-> ->]. exists None, None. split; [by destruct fuel|done].
    + destruct HC as (-> & -> & Hlt). exists (Some p), (Some (cmp k d)). split; [by destruct fuel|]. split.
      * exists (lo C), d, (inorder sib ++ hi C). rewrite inorder_plug. cbn.
        cbn in Flo, Fhi. split_and!; [done|done| |lia]. intros _. exact Flo.
      * eexists. split; [apply (rd_parent s C (FL c p d sib) Leaf Hrep)|]. cbn. split; [done|lia].
    + destruct HC as (-> & -> & Hgt). exists (Some p), (Some (cmp k d)). split; [by destruct fuel|]. split.
      * exists (lo C ++ inorder sib), d, (hi C). rewrite inorder_plug. cbn.
        cbn in Flo, Fhi. split_and!; [by rewrite <- !app_assoc|done|lia|]. intros _. exact Fhi.
      * eexists. split; [apply (rd_parent s C (FR c p d sib) Leaf Hrep)|]. cbn. split; [lia|done].
  - destruct fuel as [|fuel]; [cbn in Hf; lia|]. cbn in Hf. cbn [rp find2_loop].
    rewrite (rep_rd _ _ _ _ _ _ _ Hrep). cbn [mbind option_bind dat lft rgt].
    assert (Hsx := Hs). rewrite inorder_plug in Hsx. cbn in Hsx.
    apply sorted_app in Hsx as (_ & Hsx & _). rewrite <- app_assoc in Hsx. cbn in Hsx.
    apply sorted_app in Hsx as (_ & Hsx & Hb). apply sorted_cons in Hsx as (_ & Ha).
    assert (FL1 : (0 <= cmp k d)%Z -> Forall (fun e => (cmp k e.2 > 0)%Z) (inorder tl)).
    { intros H0. apply Forall_forall. intros e He. specialize (Hb e (p, d) He ltac:(constructor)). cbn in Hb.
      destruct TO as [T1 T2]. assert (cmp d k <= 0)%Z by (apply T1; lia).
      assert (cmp e.2 k < 0)%Z by (by eapply (cmp_lt_trans cmp TO); [exact Hb|]).
      apply (cmp_neg cmp TO) in H1. lia. }
    assert (FR1 : (cmp k d <= 0)%Z -> Forall (fun e => (cmp k e.2 < 0)%Z) (inorder tr)).
    { intros H0. apply Forall_forall. intros e He. specialize (Ha e ltac:(rewrite elem_of_app; auto)). cbn in Ha.
      by eapply (cmp_le_lt_trans cmp TO). }
    destruct (Z.ltb_spec (cmp k d) 0) as [Hlt|Hge].
    + destruct (IHl (FL c p d tr :: C) fuel (Some p) (Some (cmp k d))) as (o & r & E & Hor).
      * exact Hrep.
      * lia.
      * exact Hs.
      * exact Flo.
      * cbn. apply Forall_cons. split; [exact Hlt|]. apply Forall_app. split; [apply FR1; lia|exact Fhi].
      * done.
      * exists o, r. split; [exact E|]. destruct o, r; try done. by destruct Hor.
    + destruct (Z.ltb_spec 0 (cmp k d)) as [Hgt|Hle].
      * destruct (IHr (FR c p d tl :: C) fuel (Some p) (Some (cmp k d))) as (o & r & E & Hor).
        -- exact Hrep.
        -- lia.
        -- exact Hs.
        -- cbn. rewrite !Forall_app. split_and!; [exact Flo|apply FL1; lia|]. apply Forall_cons. split; [cbn; lia|constructor].
        -- exact Fhi.
        -- split_and!; [done|done|lia].
        -- exists o, r. split; [exact E|]. destruct o, r; try done. by destruct Hor.
      * exists (Some p), (Some (cmp k d)). split; [done|]. split.
        -- exists (lo C ++ inorder tl), d, (inorder tr ++ hi C). rewrite inorder_plug. cbn. split_and!.
           ++ by rewrite <- !app_assoc.
           ++ done.
           ++ intros _. apply Forall_app. split; [exact Flo|apply FL1; lia].
           ++ intros _. apply Forall_app. split; [apply FR1; lia|exact Fhi].
        -- eexists. split; [by apply (rep_rd _ _ _ _ _ _ _ Hrep)|]. split; lia.
Qed.

Lemma inv_find2 fuel s l k :
  inv s l -> strictly_sorted cmp l -> length l <= fuel ->
  exists o r, rbtree_find2 cmp fuel s k = Some (o, r) /\
    match o, r with
    | None, None => l = []
    | Some n, Some r => place k l n r /\
        exists nn, rd s n = Some nn /\ ((r < 0)%Z -> lft nn = None) /\ ((r > 0)%Z -> rgt nn = None)
    | _, _ => False
    end.
Proof.
  intros (t & Hrep & <- & _ & _) Hs Hf. unfold rbtree_find2. assert (root s = rp t) as -> by apply Hrep.
  pose proof (height_inorder t).
  destruct (find2_loop_ok fuel s k [] t None None) as (o & r & E & H1); try done; [lia|constructor|constructor|].
  exists o, r. split; [exact E|]. destruct o, r; try done. by destruct H1 as [_ ->].
Qed.
End find2.

(** C60, replacement.  After every legal history, replacing an entry's node by a freshly allocated one and
    freeing the old one succeeds, the tree then lists the same entries in the same order with the new
    handle, is still balanced, and every further legal history behaves as on that list. *)
Theorem C60_replace_node {K} (cmp : K -> K -> Z) (os os2 : list (op K)) (fuel : nat) (v n : positive) (j : node K) :
  total_order cmp -> legal_run cmp [] os ->
  let l := (spec_run cmp [] os).2 in
  v ∈ l.*1 -> n ∉ l.*1 ->
  legal_run cmp (swap_node v n l) os2 -> length os + length os2 + 3 <= fuel ->
  exists s rs s1 s2, exec_all cmp fuel empty_tree os = Some (rs, s)
    /\ replace_and_free s v n j = Some s1
    /\ walk fuel s1 = Some (swap_node v n l)
    /\ color s1 (root s1) = Some true /\ no_red_red s1 /\ (exists h, black_height s1 (root s1) h)
    /\ exec_all cmp fuel s1 os2 = Some ((spec_run cmp (swap_node v n l) os2).1, s2)
    /\ walk fuel s2 = Some (spec_run cmp (swap_node v n l) os2).2.
Proof.
  intros TO HL l Hv Hn HL2 Hf.
  destruct (exec_all_ok cmp TO os fuel empty_tree [] inv_empty ltac:(constructor) HL ltac:(cbn; lia)) as (s & E & Hi & Hs & Hlen).
  fold l in Hi, Hs, Hlen. cbn in Hlen.
  destruct (inv_replace s l v n j Hi Hv Hn) as (s1 & E1 & Hi1).
  assert (Hl1 : length (swap_node v n l) = length l) by apply fmap_length.
  assert (Hs1 : strictly_sorted cmp (swap_node v n l)).
  { clear -Hs. unfold strictly_sorted in *. induction Hs as [|[a x] l _ IH Hall]; cbn; constructor; [exact IH|].
    apply List.Forall_map. eapply List.Forall_impl; [|exact Hall]. done. }
  destruct (exec_all_ok cmp TO os2 fuel s1 _ Hi1 Hs1 HL2 ltac:(lia)) as (s2 & E2 & Hi2 & Hs2 & Hlen2).
  destruct (inv_rb s1 _ Hi1) as (B1 & B2 & B3).
  exists s. eexists. exists s1, s2. split_and!; try done.
  - apply inv_walk; [exact Hi1|lia].
  - apply inv_walk; [exact Hi2|lia].
Qed.
Print Assumptions C60_replace_node.

(** C60, insertion point.  After every legal history and for every key: on an empty tree the lookup returns
    no node and writes no result; otherwise it returns an entry [n] of the tree and the comparison of the
    key with it; result 0 means [n] is the entry with that key; result < 0 means [n] is the first entry
    greater than the key and has a free left slot; result > 0 means [n] is the last entry smaller than the
    key and has a free right slot. *)
Theorem C60_find2 {K} (cmp : K -> K -> Z) (os : list (op K)) (fuel : nat) (k : K) :
  total_order cmp -> legal_run cmp [] os -> length os + 3 <= fuel ->
  exists s rs, exec_all cmp fuel empty_tree os = Some (rs, s) /\
  let l := (spec_run cmp [] os).2 in
  match rbtree_find2 cmp fuel s k with
  | Some (None, None) => l = []
  | Some (Some n, Some r) =>
      exists l1 d l2, l = l1 ++ (n, d) :: l2 /\ r = cmp k d /\
      ((r = 0)%Z -> lookup_key cmp k l = Some n) /\
      ((r < 0)%Z -> lookup_key cmp k l = None /\ (forall e, e ∈ l1 -> (cmp k e.2 > 0)%Z)
                    /\ exists nn, rd s n = Some nn /\ lft nn = None) /\
      ((r > 0)%Z -> lookup_key cmp k l = None /\ (forall e, e ∈ l2 -> (cmp k e.2 < 0)%Z)
                    /\ exists nn, rd s n = Some nn /\ rgt nn = None)
  | _ => False
  end.
Proof.
  intros TO HL Hf.
  destruct (exec_all_ok cmp TO os fuel empty_tree [] inv_empty ltac:(constructor) HL Hf) as (s & E & Hi & Hs & Hlen).
  cbn in Hlen. exists s. eexists. split; [exact E|]. cbv zeta. set (l := (spec_run cmp [] os).2) in *.
  destruct (inv_find2 cmp TO fuel s l k Hi Hs ltac:(lia)) as (o & r & -> & H). destruct o as [n|], r as [r|]; try done.
  destruct H as ((l1 & d & l2 & El & -> & P1 & P2) & nn & Hnn & Q1 & Q2). exists l1, d, l2. rewrite El in Hs |- *.
  apply sorted_app in Hs as (_ & Hs & Hb). apply sorted_cons in Hs as (_ & Ha). cbn in Ha.
  rewrite Forall_forall in P1, P2.
  split_and!; [done|done| | |].
  - intros H0. rewrite lookup_key_app.
    assert (lookup_key cmp k l1 = None) as ->.
    { apply lookup_key_none. intros e He. specialize (P1 ltac:(lia) e He). cbn in P1. lia. }
    cbn. by rewrite (proj2 (Z.eqb_eq _ _) H0).
  - intros Hlt. split_and!.
    + apply lookup_key_none. intros e [He|[->|He]%elem_of_cons]%elem_of_app; cbn.
      * specialize (P1 ltac:(lia) e He). cbn in P1. lia.
      * lia.
      * specialize (Ha e He). pose proof (cmp_lt_trans cmp TO _ _ _ Hlt (Z.lt_le_incl _ _ Ha)). lia.
    + intros e He. by apply P1; [lia|].
    + eauto.
  - intros Hgt. split_and!.
    + apply lookup_key_none. intros e [He|[->|He]%elem_of_cons]%elem_of_app; cbn.
      * specialize (Hb e (n, d) He ltac:(constructor)). cbn in Hb. intros E0.
        assert (H1 : (cmp k d < 0)%Z) by (eapply (cmp_le_lt_trans cmp TO); [|exact Hb]; lia). lia.
      * lia.
      * specialize (P2 ltac:(lia) e He). cbn in P2. lia.
    + intros e He. by apply P2; [lia|].
    + eauto.
Qed.
Print Assumptions C60_find2.

(** concrete case: seven keys; the root's node is replaced; lookups of a present, a smaller, an inner key *)
Definition C60_hist : list (op Z) :=
  [Ins 50 50 1 0; Ins 30 30 2 0; Ins 80 80 3 0; Ins 10 10 4 0; Ins 40 40 5 0; Ins 70 70 6 0; Ins 90 90 7 0]%Z.
Example C60_demo :
  match exec_all Z.sub 20 empty_tree C60_hist with None => False | Some (_, s) =>
  rbtree_find2 Z.sub 20 s 70%Z = Some (Some 6%positive, Some 0%Z)
  /\ rbtree_find2 Z.sub 20 s 45%Z = Some (Some 5%positive, Some 5%Z)
  /\ rbtree_find2 Z.sub 20 s 5%Z = Some (Some 4%positive, Some (-5)%Z) /\
  match replace_and_free s 1 9 (mkn None true None None 0%Z) with None => False | Some s1 =>
  walk 20 s1 = Some [(4%positive, 10); (2%positive, 30); (5%positive, 40); (9%positive, 50);
                     (6%positive, 70); (3%positive, 80); (7%positive, 90)]%Z /\
  match exec_all Z.sub 20 s1 [Rem 2; Rem 9; Find 50; Ins 50 50 1 0; Find 50]%Z with
  | None => False | Some (rs, s2) => rs = [RRem; RRem; RFind None; RIns 1 true; RFind (Some 1%positive)]
  end end end.
Proof. vm_compute. by split_and!. Qed.
#[local] Instance legal_dec60 (l : list (positive * Z)) o : Decision (legal Z.sub l o).
Proof. destruct o; cbn [legal]; apply _. Defined.
#[local] Instance legal_run_dec60 os : forall l, Decision (legal_run Z.sub l os).
Proof. induction os as [|o os IH]; intros l; cbn [legal_run]; apply _. Defined.
Example C60_demo_legal : legal_run Z.sub [] C60_hist
  /\ legal_run Z.sub (swap_node 1 9 (spec_run Z.sub [] C60_hist).2) [Rem 2; Rem 9; Find 50; Ins 50 50 1 0; Find 50]%Z.
Proof. split; apply (bool_decide_unpack _); vm_compute; exact I. Qed.
