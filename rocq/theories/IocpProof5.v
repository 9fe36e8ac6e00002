(** The invariant of the Windows backend holds in every state reached. *)
From Verif Require Export IocpProof4.
Local Open Scope Z_scope.

Lemma accp_none s o d : acc s = None -> accp s o d = false.
Proof. unfold accp. by intros ->. Qed.
Lemma accp_W s o : accp s o W = false.
Proof. unfold accp. by destruct (acc s) as [[]|]. Qed.
Lemma sid_upd x d y l : sid (upd_side x d y l) d = y.
Proof. by destruct d. Qed.
Lemma sid_upd_oth x d y l : sid (upd_side x d y l) (other d) = sid x (other d).
Proof. by destruct d. Qed.
Lemma kd_upd x d y l : kd (upd_side x d y l) = kd x.
Proof. by destruct d. Qed.
Lemma kd_set x d y : kd (set_sid x d y) = kd x.
Proof. by destruct d. Qed.
Lemma acs_upd x d y l : acs (upd_side x d y l) = acs x.
Proof. by destruct d. Qed.
Lemma acs_set x d y : acs (set_sid x d y) = acs x.
Proof. by destruct d. Qed.
Lemma rqo_upd x d y l : kd x <> KListen -> rqo (upd_side x d y l) d = rq y.
Proof. intros H. unfold rqo. rewrite kd_upd, decide_False, sid_upd; done. Qed.
(** changing one side of an object that is not a listener, or clearing a side *)
Lemma okob_side x d y l : okob x -> (f2 y = true -> bz y = true /\ kd x = KConn) -> (kd x = KListen -> d = W -> bz y = false) -> okob (upd_side x d y l).
Proof.
  intros (F1 & F2 & F3 & F4) Hy Hl. split_and!.
  - intros d'. rewrite kd_upd. destruct (dir_cases d d') as [-> | ->]; [by rewrite sid_upd|rewrite sid_upd_oth; apply F1].
  - rewrite kd_upd. intros E. destruct d; [by apply F2|by apply Hl].
  - by rewrite kd_upd, acs_upd.
  - by rewrite kd_upd.
Qed.
Lemma okob_set x d y : okob x -> (f2 y = true -> bz y = true /\ kd x = KConn) -> (kd x = KListen -> d = W -> bz y = false) -> okob (set_sid x d y).
Proof. intros H1 H2 H3. pose proof (okob_side x d y (loc x) H1 H2 H3) as H. by destruct d, x. Qed.
Lemma I_open s o k t : I s -> objs s !! o = None -> k <> KUdp false -> I (log [OOpen o k] (put o (Ob k (Sd false false 0) (Sd false false 0) None t None true false) s)).
Proof.
  intros HI Eo Hk. set (x' := Ob k _ _ _ _ _ _ _). set (s' := log _ _).
  assert (Hacc : forall o' k', acc s = Some (o', k') -> o' <> o). { intros o' k' E ->. destruct (i_acc _ HI _ _ E) as (x & ? & _). congruence. }
  assert (Eo' : objs s' !! o = Some x') by apply lookup_insert.
  assert (Hne : forall o', o' <> o -> objs s' !! o' = objs s !! o') by (intros; by apply lookup_insert_ne).
  assert (Hv : forall a, val s' a = val s a).
  { intros [o' d|j|j]; [|done|by apply (val_HD s s' [OOpen o k]); [done|repeat constructor]]. destruct (decide (o' = o)) as [->|H].
    - rewrite (val_at _ _ _ _ Eo'). cbn [val]. rewrite Eo. assert (accp s' o d = false) as ->.
      { unfold accp. cbn. destruct (acc s) as [[o1 k1]|] eqn:E; [|done]. destruct d; [|done]. apply bool_decide_eq_false. by eapply Hacc. }
      by destruct d.
    - cbn [val]. by rewrite Hne. }
  apply I_intro.
  - eapply K_ext; [apply (i_k _ HI)|done|done|]. intros j. unfold made. setoid_rewrite elem_of_list_singleton. by intros [(?&?&?)|(?&?)].
  - eapply P_perm; [apply (i_p _ HI)|done|]. intros o' d. unfold flight. destruct (decide (o' = o)) as [->|H]; [rewrite Eo', Eo; by destruct d|by rewrite Hne].
  - intros o' x. destruct (decide (o' = o)) as [->|H].
    + rewrite Eo'. intros [= <-]. split_and!; try done. by intros [].
    + rewrite Hne by done. by apply I_okob.
  - eapply Mk_le; [exact (i_made _ HI)|]. intros o' d' j. by rewrite Hv.
  - intros o' j E. destruct (i_acc _ HI _ _ E) as (x & Ex & H). exists x. rewrite Hne; [done|]. by eapply Hacc.
  - apply (i_heap _ HI).
  - apply (i_nnd _ HI).
  - eapply (pcok_mono s); [done| |apply (i_pc _ HI)]. intros o' y d Ey Hb. exists y. rewrite Hne; [done|]. congruence.
Qed.
Lemma I_close s o x l : I s -> objs s !! o = Some x -> bz (sr x) = false -> bz (sw x) = false -> acc s = None -> l = match acs x with Some n => [OSockClose n] | None => [] end ->
  I (log (OClose o :: l) (s_objs (delete o (objs s)) s)).
Proof.
  intros HI Eo B1 B2 Ea El. set (s' := log _ _).
  assert (Eo' : objs s' !! o = None) by apply lookup_delete.
  assert (Hne : forall o', o' <> o -> objs s' !! o' = objs s !! o') by (intros; by apply lookup_delete_ne).
  assert (Hnd : nodrop (OClose o :: l)) by (subst l; destruct (acs x); by repeat constructor).
  assert (Hv : forall a, val s' a = val s a).
  { intros [o' d|j|j]; [|done|by apply (val_HD s s' (OClose o :: l))]. destruct (decide (o' = o)) as [->|H].
    - rewrite (val_at _ _ _ _ Eo). cbn [val]. rewrite Eo', (accp_none s) by done. destruct d; cbn; by rewrite ?B1, ?B2.
    - cbn [val]. by rewrite Hne. }
  apply I_intro.
  - eapply K_ext; [apply (i_k _ HI)|done| |]; [subst l; by destruct (acs x)|]. intros j. subst l. unfold made. destruct (acs x); repeat setoid_rewrite elem_of_cons; setoid_rewrite elem_of_nil; naive_solver.
  - eapply P_perm; [apply (i_p _ HI)|done|]. intros o' d. unfold flight. destruct (decide (o' = o)) as [->|H]; [rewrite Eo', Eo; destruct d; cbn; by rewrite ?B1, ?B2|by rewrite Hne].
  - intros o' x'. destruct (decide (o' = o)) as [->|H]; [by rewrite Eo'|]. rewrite Hne by done. by apply I_okob.
  - eapply Mk_le; [exact (i_made _ HI)|]. intros o' d' j. by rewrite Hv.
  - intros o' j E. cbn in E. congruence.
  - apply (i_heap _ HI).
  - apply (i_nnd _ HI).
  - eapply (pcok_mono s); [done| |apply (i_pc _ HI)]. intros o' y d Ey Hb. exists y. rewrite Hne; [done|]. intros ->. assert (y = x) as -> by congruence. destruct d; cbn in Hb; congruence.
Qed.
Lemma I_acc_ok s o k x : I s -> acc s = Some (o, k) -> objs s !! o = Some x ->
  I (log [OSock o (nsk s)] (s_acc None (s_nsk (S (nsk s)) (s_pend (pend s ++ [(o, R, k)]) (put o (set_sid (set_acs x (Some (nsk s))) R (Sd true false (rq (sr x)))) s))))).
Proof.
  intros HI Ea Eo. destruct (i_acc _ HI _ _ Ea) as (x1 & E1 & Ek & B1 & Hk & _). assert (x1 = x) as -> by congruence. clear E1.
  set (x' := set_sid _ _ _). set (s' := log _ _). assert (Eo' : objs s' !! o = Some x') by apply lookup_insert. pose proof (I_okob _ _ _ HI Eo) as (F1 & F2 & F3 & F4).
  assert (Hne : forall o', o' <> o -> objs s' !! o' = objs s !! o') by (intros; by apply lookup_insert_ne).
  assert (Er : forall d, rqo x' d = k) by (intros; unfold rqo; by rewrite decide_True).
  assert (Er' : forall d, rqo x d = k) by (intros; unfold rqo; by rewrite decide_True).
  assert (Hf2 : f2 (sr x) = false). { destruct (f2 (sr x)) eqn:E; [|done]. destruct (F1 R E) as [? _]. cbn in *; congruence. }
  assert (Hv : forall a, val s' a = val s a).
  { intros [o' d|j|j]; [|done|apply (val_HD s s' [OSock o (nsk s)]); [done|by repeat constructor]]. destruct (decide (o' = o)) as [->|H].
    - rewrite (val_at _ _ _ _ Eo'), (val_at _ _ _ _ Eo), Er, Er'. rewrite (accp_none s') by done. unfold accp. rewrite Ea. destruct d; cbn; [by rewrite bool_decide_true, orb_true_r|done].
    - cbn [val]. rewrite Hne by done. rewrite (accp_none s') by done. unfold accp. rewrite Ea. destruct d; [|done]. by rewrite bool_decide_false. }
  apply I_intro.
  - eapply K_ext; [apply (i_k _ HI)|done|done|]. intros j. unfold made. setoid_rewrite elem_of_list_singleton. by intros [(?&?&?)|(?&?)].
  - eapply P_perm; [eapply (P_add _ _ (flight s') o R k); [apply (i_p _ HI)|..]| |done].
    + rewrite (flight_at _ _ _ _ Eo). cbn. by rewrite B1.
    + rewrite (flight_at _ _ _ _ Eo'), Er. done.
    + intros o' d' Hn. unfold flight. destruct (decide (o' = o)) as [->|H]; [|by rewrite Hne]. rewrite Eo', Eo, Er, Er'. by destruct d'.
    + cbn. rewrite <- app_assoc. cbn. by rewrite Permutation_middle.
  - intros o' y. destruct (decide (o' = o)) as [->|H]; [|rewrite Hne by done; by apply I_okob]. rewrite Eo'. intros [= <-]. split_and!; try done. intros [] Hf; [done|]. by apply (F1 W).
  - eapply Mk_le; [exact (i_made _ HI)|]. intros o' d' j. by rewrite Hv.
  - done.
  - apply (i_heap _ HI).
  - apply (i_nnd _ HI).
  - eapply (pcok_mono s); [done| |apply (i_pc _ HI)]. intros o' y d Ey Hb. destruct (decide (o' = o)) as [->|H]; [|exists y; by rewrite Hne]. assert (y = x) as -> by congruence.
    exists x'. split; [done|]. destruct d; [|done]. cbn in Hb. congruence.
Qed.
Lemma I_acc_end s o k : I s -> acc s = Some (o, k) -> I (log [OFail k] (s_acc None s)).
Proof.
  intros HI Ea. destruct (i_acc _ HI _ _ Ea) as (x & Eo & Ek & B1 & Hk & _). set (s' := log _ _).
  assert (Er' : forall d, rqo x d = k) by (intros; unfold rqo; by rewrite decide_True).
  assert (Hv : forall a, a <> HS o R -> val s' a = val s a).
  { intros [o' d|j|j] Hne; [|done|apply (val_HD s s' [OFail k]); [done|by repeat constructor]]. cbn [val]. rewrite (accp_none s') by done. change (objs s') with (objs s). unfold accp. rewrite Ea.
    destruct d; [|done]. rewrite bool_decide_false by congruence. done. }
  apply I_intro.
  - eapply (K_del _ _ _ _ _ (i_k _ HI) (HS o R) k); [|exact Hv|..].
    + rewrite (val_at _ _ _ _ Eo), Er'. unfold accp. rewrite Ea. by rewrite bool_decide_true, orb_true_r.
    + rewrite (val_at s' _ _ _ Eo). rewrite (accp_none s') by done. cbn. by rewrite B1.
    + intros j. unfold answers. cbn. destruct (decide (j = k)) as [->|Hne]; [by rewrite decide_True by (by apply bool_decide_eq_true)|].
      rewrite decide_False; [done|]. intros H%bool_decide_eq_true. congruence.
    + intros j. unfold made. setoid_rewrite elem_of_list_singleton. by intros [(?&?&?)|(?&?)].
  - apply (i_p _ HI).
  - intros o' y E'. exact (I_okob s o' y HI E').
  - eapply Mk_le; [exact (i_made _ HI)|]. intros o' d' j E. destruct (decide (HS o' d' = HS o R)) as [[= -> ->]|Hne]; [|by rewrite <- Hv].
    rewrite (val_at s' _ _ _ Eo) in E. rewrite (accp_none s') in E by done. cbn in E. by rewrite B1 in E.
  - done.
  - apply (i_heap _ HI).
  - apply (i_nnd _ HI).
  - eapply (pcok_mono s); [done| |apply (i_pc _ HI)]. intros o' y d Ey Hb. by exists y.
Qed.
Lemma ch_lt s k : I s -> k ∈ nexts (cq s) -> (k < nx s)%nat.
Proof. intros HI H. eapply (K_fresh _ _ _ (i_k _ HI) (HN k)). cbn. by rewrite decide_True. Qed.
Lemma drop_lt s k : I s -> ODrop k ∈ hist s -> (k < nx s)%nat.
Proof. intros HI H. eapply (K_fresh _ _ _ (i_k _ HI) (HD k)). cbn. by rewrite decide_True. Qed.
Lemma I_post s v : I s -> I (log [OPost (nx s) v] (s_nx (S (nx s)) (s_cq (cq s ++ [KNext (nx s) v]) (s_heap ({[nx s]} ∪ heap s) s)))).
Proof.
  intros HI. set (s' := log _ _). assert (En : nexts (cq s') = nexts (cq s) ++ [nx s]) by (cbn; by rewrite nexts_app).
  assert (Hf : nx s ∉ nexts (cq s)) by (intros H%(ch_lt _ _ HI); lia).
  assert (Hv : forall a, a <> HN (nx s) -> val s' a = val s a).
  { intros [o d|j|j] Hne; [done| |apply (val_HD s s' [OPost (nx s) v]); [done|by repeat constructor]]. cbn [val]. rewrite En.
    destruct (decide (j ∈ nexts (cq s) ++ [nx s])) as [H|H], (decide (j ∈ nexts (cq s))) as [H'|H']; try done; rewrite elem_of_app, elem_of_list_singleton in H; [|tauto]. destruct H as [|Hj]; [done|congruence]. }
  apply I_intro.
  - eapply (K_add _ _ _ _ _ (i_k _ HI) (HN (nx s))); [|exact Hv|..].
    + cbn [val]. by rewrite decide_False.
    + cbn [val]. rewrite En. rewrite decide_True; [done|]. apply elem_of_app. right. by apply elem_of_list_singleton.
    + done.
    + intros j. unfold made. setoid_rewrite elem_of_list_singleton. split; [intros [(?&?&[=])|(?&[=])]; done|intros ->; eauto].
  - cbn. rewrite cops_app. cbn. rewrite app_nil_r. apply (i_p _ HI).
  - intros o' y E'. exact (I_okob s o' y HI E').
  - eapply Mk_le; [exact (i_made _ HI)|]. intros o' d' j. by rewrite Hv.
  - apply (i_acc _ HI).
  - intros j. rewrite En, elem_of_app, elem_of_list_singleton. cbn. rewrite elem_of_union, elem_of_singleton, (i_heap _ HI). tauto.
  - rewrite En. apply NoDup_app. split_and!; [apply (i_nnd _ HI)| |by repeat constructor; apply not_elem_of_nil]. intros j Hj ->%elem_of_list_singleton. done.
  - eapply (pcok_mono s); [done| |apply (i_pc _ HI)]. intros o' y d Ey Hb. by exists y.
Qed.
Lemma I_drop s v : I s -> I (log [OPost (nx s) v; ODrop (nx s)] (s_nx (S (nx s)) s)).
Proof.
  intros HI. set (s' := log _ _).
  assert (Hf : ODrop (nx s) ∉ hist s) by (intros H%(drop_lt _ _ HI); lia).
  assert (Hv : forall a, a <> HD (nx s) -> val s' a = val s a).
  { intros [o d|j|j] Hne; [done..|]. cbn [val]. change (hist s') with (hist s ++ [OPost (nx s) v; ODrop (nx s)]).
    destruct (decide (ODrop j ∈ hist s ++ _)) as [H|H], (decide (ODrop j ∈ hist s)) as [H'|H']; try done.
    - apply elem_of_app in H as [|H]; [done|]. apply elem_of_cons in H as [|H]; [done|]. apply elem_of_list_singleton in H. congruence.
    - destruct H. apply elem_of_app. by left. }
  apply I_intro.
  - eapply (K_add _ _ _ _ _ (i_k _ HI) (HD (nx s))); [|exact Hv|..].
    + cbn [val]. by rewrite decide_False.
    + cbn [val]. rewrite decide_True; [done|]. apply elem_of_app. right. apply elem_of_cons. right. by apply elem_of_list_singleton.
    + done.
    + intros j. unfold made. repeat setoid_rewrite elem_of_cons. setoid_rewrite elem_of_nil. naive_solver.
  - apply (i_p _ HI).
  - intros o' y E'. exact (I_okob s o' y HI E').
  - eapply Mk_le; [exact (i_made _ HI)|]. intros o' d' j. by rewrite Hv.
  - apply (i_acc _ HI).
  - apply (i_heap _ HI).
  - apply (i_nnd _ HI).
  - eapply (pcok_mono s); [done| |apply (i_pc _ HI)]. intros o' y d Ey Hb. by exists y.
Qed.
Lemma I_kern s i p v : I s -> pend s !! i = Some p -> I (log [OKern (p.2) v] (s_cq (cq s ++ [KOp p v]) (s_pend (delete i (pend s)) s))).
Proof.
  intros HI Ep. set (s' := log _ _). assert (En : nexts (cq s') = nexts (cq s)) by (cbn; by rewrite nexts_app, app_nil_r).
  assert (Hv : forall a, val s' a = val s a). { apply (val_same s s' [OKern (p.2) v]); try done. by repeat constructor. }
  apply I_intro.
  - eapply K_ext; [apply (i_k _ HI)|done|done|]. intros j. unfold made. setoid_rewrite elem_of_list_singleton. by intros [(?&?&?)|(?&?)].
  - eapply P_perm; [apply (i_p _ HI)| |done]. cbn. rewrite cops_app. cbn. rewrite (delete_Permutation _ _ _ Ep) at 2. cbn. rewrite app_assoc, (Permutation_app_comm _ [p]). done.
  - intros o' y E'. exact (I_okob s o' y HI E').
  - eapply Mk_le; [exact (i_made _ HI)|]. intros o' d' j. by rewrite Hv.
  - apply (i_acc _ HI).
  - intros j. rewrite En. apply (i_heap _ HI).
  - rewrite En. apply (i_nnd _ HI).
  - eapply (pcok_mono s); [done| |apply (i_pc _ HI)]. intros o' y d Ey Hb. by exists y.
Qed.
Lemma I_hnext s k v l : I s -> cq s = KNext k v :: l -> I (log [OCb k v] (s_heap (heap s ∖ {[k]}) (s_cq l s))).
Proof.
  intros HI Ec. set (s' := log _ _). assert (En : nexts (cq s) = k :: nexts l) by by rewrite Ec. pose proof (i_nnd _ HI) as Hnd. rewrite En in Hnd. apply NoDup_cons in Hnd as [Hn Hnd].
  assert (Hv : forall a, a <> HN k -> val s' a = val s a).
  { intros [o d|j|j] Hne; [done| |apply (val_HD s s' [OCb k v]); [done|by repeat constructor]]. cbn [val]. rewrite En. cbn [s' log s_heap s_cq cq].
    destruct (decide (j ∈ nexts l)) as [H|H], (decide (j ∈ k :: nexts l)) as [H'|H']; try done; rewrite elem_of_cons in H'; [tauto|]. destruct H' as [->|]; done. }
  apply I_intro.
  - eapply (K_del _ _ _ _ _ (i_k _ HI) (HN k) k); [|exact Hv|..].
    + cbn [val]. rewrite En, decide_True; [done|]. apply elem_of_cons. by left.
    + cbn [val]. by rewrite decide_False.
    + intros j. unfold answers. cbn. destruct (decide (j = k)) as [->|Hne]; [by rewrite decide_True by (by apply bool_decide_eq_true)|].
      rewrite decide_False; [done|]. intros H%bool_decide_eq_true. congruence.
    + intros j. unfold made. setoid_rewrite elem_of_list_singleton. by intros [(?&?&?)|(?&?)].
  - cbn. pose proof (i_p _ HI) as HP. by rewrite Ec in HP.
  - intros o' y E'. exact (I_okob s o' y HI E').
  - eapply Mk_le; [exact (i_made _ HI)|]. intros o' d' j. by rewrite Hv.
  - apply (i_acc _ HI).
  - intros j. cbn. rewrite elem_of_difference, elem_of_singleton, (i_heap _ HI), En, elem_of_cons. split; [tauto|]. intros H. split; [by right|]. by intros ->.
  - done.
  - eapply (pcok_mono s); [done| |apply (i_pc _ HI)]. intros o' y d Ey Hb. by exists y.
Qed.
