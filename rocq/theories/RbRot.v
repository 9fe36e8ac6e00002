(** Correctness of the two rotations on zippers. *)
From Verif Require Import RbModel RbZip.

Section rb_rot.
Context {K : Type}.
Implicit Types (s : rbs K) (h : gmap positive (node K)).

Lemma rd_some h rt p n : h !! p = Some n -> rd (mks h rt) p = Some n.
Proof. done. Qed.
Lemma upd_some h rt p n (f : node K -> node K) : h !! p = Some n -> upd (mks h rt) p f = Some (mks (<[p:=f n]> h) rt).
Proof. unfold upd, rd; cbn [heap]. by intros ->. Qed.

(** right-first variant of the child replacement, as written in __rb_rotate_right (110-119) *)
Definition replace_child_r s (parent : option positive) (old : positive) (x : option positive) : option (rbs K) :=
  match parent with
  | Some p => pn ← rd s p;
              if decide (rgt pn = Some old) then upd s p (w_rgt x) else upd s p (w_lft x)
  | None => Some (set_root s x)
  end.
Lemma repc_replace_r h rt (C : ctx K) old x :
  repc h rt C (Some old) -> old ∉ idsc C -> NoDup (idsc C) ->
  exists s', replace_child_r (mks h rt) (pc C) old x = Some s' /\ repc (heap s') (root s') C x
    /\ (forall q, pc C <> Some q -> heap s' !! q = h !! q).
Proof.
  destruct C as [|f C]; cbn.
  - intros _ _ _. eexists; split; [done|]. cbn. naive_solver.
  - intros (H1 & H2 & H3) Hold ND. rewrite NoDup_cons in ND. destruct ND as [Hf ND].
    unfold rd; cbn. rewrite H1; cbn.
    assert (HS : old <> fp f) by set_solver.
    assert (Hsib : rp (fsib f) <> Some old).
    { intros E. apply Hold. destruct (fsib f); cbn in *; [done|]. simplify_eq. set_solver. }
    destruct f as [c p k r|c p k l]; cbn in *.
    + rewrite decide_False by done. unfold upd, rd; cbn. rewrite H1; cbn. eexists; split; [done|]. cbn.
      split_and!.
      * by rewrite lookup_insert.
      * apply rept_insert_ne; [set_solver|done].
      * apply repc_insert_ne; [set_solver|done].
      * intros q Hq. rewrite lookup_insert_ne; [done|congruence].
    + rewrite decide_True by done. unfold upd, rd; cbn. rewrite H1; cbn. eexists; split; [done|]. cbn.
      split_and!.
      * by rewrite lookup_insert.
      * apply rept_insert_ne; [set_solver|done].
      * apply repc_insert_ne; [set_solver|done].
      * intros q Hq. rewrite lookup_insert_ne; [done|congruence].
Qed.

Lemma rotate_left_ok s (C : ctx K) c p k l c2 q k2 rl rr :
  rep s (plug C (Node c p k l (Node c2 q k2 rl rr))) ->
  exists s', rotate_left s p = Some s' /\
    rep s' (plug C (Node c2 q k2 (Node c p k l rl) rr)) /\
    same_out s s' (plug C (Node c p k l (Node c2 q k2 rl rr))).
Proof.
  intros H. apply rep_plug in H as H'. destruct s as [h rt]. cbn in H'.
  destruct H' as ((Hp & Hl & Hq & Hrl & Hrr) & HC & ND).
  rewrite NoDup_cons, !NoDup_app, NoDup_cons, NoDup_app in ND.
  destruct ND as (Np & (NDl & Nl & NDq) & Nl2 & NDC).
  destruct NDq as (Nq & NDrl & Nrl & NDrr).
  assert (Hpq : p <> q) by set_solver.
  unfold rotate_left. rewrite (rd_some _ _ _ _ Hp); cbn -[upd rd set_parent_opt].
  rewrite (rd_some _ _ _ _ Hq); cbn -[upd rd set_parent_opt].
  rewrite (upd_some _ _ _ _ _ Hp); cbn -[upd rd set_parent_opt].
  destruct (rept_set_parent (<[p:=mkn (pc C) c (rp rl) (rp l) k]> h) rt (Some q) (Some p) rl) as (s2 & E2 & Hrl2 & Rt2 & F2).
  { apply rept_insert_ne; [set_solver|done]. } { done. }
  change (w_rgt (rp rl) (mkn (pc C) c (Some q) (rp l) k)) with (mkn (pc C) c (rp rl) (rp l) k).
  rewrite E2; cbn -[upd rd]. destruct s2 as [h2 rt2]; cbn [heap root] in *.
  assert (Hs2q : h2 !! q = Some (mkn (Some p) c2 (rp rr) (rp rl) k2)).
  { rewrite F2; [rewrite lookup_insert_ne; done|]. intros E%rp_elem. set_solver. }
  rewrite (upd_some _ _ _ _ _ Hs2q); cbn -[upd rd].
  erewrite upd_some by apply lookup_insert; cbn -[upd rd]. rewrite insert_insert.
  set (qn := w_par (pc C) (w_lft (Some p) (mkn (Some p) c2 (rp rr) (rp rl) k2))).
  destruct (repc_replace (<[q:=qn]> (h2)) (rt2) C p (Some q)) as (s3 & E3 & HC3 & F3 & _).
  { apply repc_insert_ne; [set_solver|]. rewrite Rt2.
    eapply repc_frame; [|exact HC]. intros x Hx. rewrite F2.
    - rewrite lookup_insert_ne; [done|]. set_solver.
    - intros E%rp_elem. set_solver. }
  { set_solver. } { done. }
  unfold replace_child in E3. rewrite E3; cbn -[upd rd]. destruct s3 as [h3 rt3]; cbn [heap root] in *.
  assert (Hs3p : h3 !! p = Some (mkn (pc C) c (rp rl) (rp l) k)).
  { rewrite F3. - rewrite lookup_insert_ne by done. rewrite F2; [by rewrite lookup_insert|]. intros E%rp_elem; set_solver.
    - intros E%pc_elem. set_solver. }
  rewrite (upd_some _ _ _ _ _ Hs3p); cbn. eexists; split; [done|].
  assert (FR : forall x, x <> p -> x <> q -> rp rl <> Some x -> pc C <> Some x ->
     <[p:=w_par (Some q) (mkn (pc C) c (rp rl) (rp l) k)]> (h3) !! x = h !! x).
  { intros x ????. rewrite lookup_insert_ne by done. rewrite F3 by done.
    rewrite lookup_insert_ne by done. rewrite F2 by done. by rewrite lookup_insert_ne. }
  split.
  - rewrite rep_plug; cbn. split_and!.
    + rewrite lookup_insert_ne by done. rewrite F3; [by rewrite lookup_insert|].
      intros E%pc_elem. set_solver.
    + by rewrite lookup_insert.
    + eapply rept_frame; [|exact Hl]. intros x Hx. apply FR.
      * set_solver. * set_solver. * intros E%rp_elem; set_solver. * intros E%pc_elem; set_solver.
    + apply rept_insert_ne; [set_solver|]. eapply rept_frame; [|exact Hrl2].
      intros x Hx. rewrite F3; [rewrite lookup_insert_ne; [done|set_solver]|]. intros E%pc_elem; set_solver.
    + eapply rept_frame; [|exact Hrr]. intros x Hx. apply FR.
      * set_solver. * set_solver. * intros E%rp_elem; set_solver. * intros E%pc_elem; set_solver.
    + apply repc_insert_ne; [set_solver|done].
    + eapply NoDup_perm; [|eapply (proj2 (proj2 (proj1 (rep_plug (mks h rt) C _) H)))]. cbn. solve_Permutation.
  - intros x Hx. rewrite ids_plug in Hx. cbn in Hx. cbn. apply FR.
    * set_solver. * set_solver. * intros E%rp_elem; set_solver. * intros E%pc_elem; set_solver.
Qed.

Lemma rotate_right_ok s (C : ctx K) c p k c2 q k2 ll lr r :
  rep s (plug C (Node c p k (Node c2 q k2 ll lr) r)) ->
  exists s', rotate_right s p = Some s' /\
    rep s' (plug C (Node c2 q k2 ll (Node c p k lr r))) /\
    same_out s s' (plug C (Node c p k (Node c2 q k2 ll lr) r)).
Proof.
  intros H. apply rep_plug in H as H'. destruct s as [h rt]. cbn in H'.
  destruct H' as ((Hp & (Hq & Hll & Hlr) & Hr) & HC & ND).
  rewrite !NoDup_cons, !NoDup_app in ND.
  destruct ND as (Np & Nq & ((NDll & Nll & NDlr) & Nlr & NDr) & NNr & NDC).
  assert (Hpq : p <> q) by set_solver.
  unfold rotate_right. rewrite (rd_some _ _ _ _ Hp); cbn -[upd rd set_parent_opt].
  rewrite (rd_some _ _ _ _ Hq); cbn -[upd rd set_parent_opt].
  rewrite (upd_some _ _ _ _ _ Hp); cbn -[upd rd set_parent_opt].
  destruct (rept_set_parent (<[p:=mkn (pc C) c (rp r) (rp lr) k]> h) rt (Some q) (Some p) lr) as (s2 & E2 & Hlr2 & Rt2 & F2).
  { apply rept_insert_ne; [set_solver|done]. } { done. }
  change (w_lft (rp lr) (mkn (pc C) c (rp r) (Some q) k)) with (mkn (pc C) c (rp r) (rp lr) k).
  rewrite E2; cbn -[upd rd]. destruct s2 as [h2 rt2]; cbn [heap root] in *.
  assert (Hs2q : h2 !! q = Some (mkn (Some p) c2 (rp lr) (rp ll) k2)).
  { rewrite F2; [rewrite lookup_insert_ne; done|]. intros E%rp_elem. set_solver. }
  rewrite (upd_some _ _ _ _ _ Hs2q); cbn -[upd rd].
  erewrite upd_some by apply lookup_insert; cbn -[upd rd]. rewrite insert_insert.
  set (qn := w_par (pc C) (w_rgt (Some p) (mkn (Some p) c2 (rp lr) (rp ll) k2))).
  destruct (repc_replace_r (<[q:=qn]> (h2)) (rt2) C p (Some q)) as (s3 & E3 & HC3 & F3).
  { apply repc_insert_ne; [set_solver|]. rewrite Rt2.
    eapply repc_frame; [|exact HC]. intros x Hx. rewrite F2.
    - rewrite lookup_insert_ne; [done|]. set_solver.
    - intros E%rp_elem. set_solver. }
  { set_solver. } { done. }
  unfold replace_child_r in E3. rewrite E3; cbn -[upd rd]. destruct s3 as [h3 rt3]; cbn [heap root] in *.
  assert (Hs3p : h3 !! p = Some (mkn (pc C) c (rp r) (rp lr) k)).
  { rewrite F3. - rewrite lookup_insert_ne by done. rewrite F2; [by rewrite lookup_insert|]. intros E%rp_elem; set_solver.
    - intros E%pc_elem. set_solver. }
  rewrite (upd_some _ _ _ _ _ Hs3p); cbn. eexists; split; [done|].
  assert (FR : forall x, x <> p -> x <> q -> rp lr <> Some x -> pc C <> Some x ->
     <[p:=w_par (Some q) (mkn (pc C) c (rp r) (rp lr) k)]> (h3) !! x = h !! x).
  { intros x ????. rewrite lookup_insert_ne by done. rewrite F3 by done.
    rewrite lookup_insert_ne by done. rewrite F2 by done. by rewrite lookup_insert_ne. }
  split.
  - rewrite rep_plug; cbn. split_and!.
    + rewrite lookup_insert_ne by done. rewrite F3; [by rewrite lookup_insert|].
      intros E%pc_elem. set_solver.
    + eapply rept_frame; [|exact Hll]. intros x Hx. apply FR.
      * set_solver. * set_solver. * intros E%rp_elem; set_solver. * intros E%pc_elem; set_solver.
    + by rewrite lookup_insert.
    + apply rept_insert_ne; [set_solver|]. eapply rept_frame; [|exact Hlr2].
      intros x Hx. rewrite F3; [rewrite lookup_insert_ne; [done|set_solver]|]. intros E%pc_elem; set_solver.
    + eapply rept_frame; [|exact Hr]. intros x Hx. apply FR.
      * set_solver. * set_solver. * intros E%rp_elem; set_solver. * intros E%pc_elem; set_solver.
    + apply repc_insert_ne; [set_solver|done].
    + eapply NoDup_perm; [|eapply (proj2 (proj2 (proj1 (rep_plug (mks h rt) C _) H)))]. cbn. solve_Permutation.
  - intros x Hx. rewrite ids_plug in Hx. cbn in Hx. cbn. apply FR.
    * set_solver. * set_solver. * intros E%rp_elem; set_solver. * intros E%pc_elem; set_solver.
Qed.
End rb_rot.
