(** The invariant of the Windows backend is kept by every transition. *)
From Verif Require Export IocpProof2.
Local Open Scope Z_scope.

Lemma sid_set x d y : sid (set_sid x d y) d = y.
Proof. by destruct d. Qed.
Lemma sid_oth x d y : sid (set_sid x d y) (other d) = sid x (other d).
Proof. by destruct d. Qed.
Lemma other_ne d : other d <> d.
Proof. by destruct d. Qed.
Lemma dir_cases (d d' : dir) : d' = d \/ d' = other d.
Proof. destruct d, d'; auto. Qed.
Lemma nexts_app l1 l2 : nexts (l1 ++ l2) = nexts l1 ++ nexts l2.
Proof. apply omap_app. Qed.
Lemma cops_app l1 l2 : cops (l1 ++ l2) = cops l1 ++ cops l2.
Proof. apply omap_app. Qed.
Definition nodrop (l : list obs) : Prop := Forall (λ e, match e with ODrop _ => False | _ => True end) l.
Lemma nodrop_app h l k : nodrop l -> ODrop k ∈ h ++ l <-> ODrop k ∈ h.
Proof.
  intros H. rewrite elem_of_app. split; [|by left]. intros [?|H1]; [done|]. by apply (proj1 (Forall_forall _ _) H) in H1.
Qed.
Lemma val_HD s s' l k : hist s' = hist s ++ l -> nodrop l -> val s' (HD k) = val s (HD k).
Proof. intros Eh Hd. cbn. rewrite Eh. destruct (decide (ODrop k ∈ hist s ++ l)) as [H|H], (decide (ODrop k ∈ hist s)) as [H'|H']; try done; rewrite nodrop_app in H; done. Qed.
Lemma val_at s o x d : objs s !! o = Some x -> val s (HS o d) = if bz (sid x d) || accp s o d then Some (rqo x d) else None.
Proof. intros E. cbn. by rewrite E. Qed.
(** nothing but a side of [o] changes *)
Lemma val_side s s' o x x' d l :
  objs s !! o = Some x -> objs s' = <[o := x']> (objs s) -> nexts (cq s') = nexts (cq s) -> hist s' = hist s ++ l -> nodrop l ->
  (forall o' d', (o', d') <> (o, d) -> accp s' o' d' = accp s o' d') ->
  bz (sid x' (other d)) = bz (sid x (other d)) -> (bz (sid x (other d)) || accp s o (other d) = true -> rqo x' (other d) = rqo x (other d)) ->
  forall a, a <> HS o d -> val s' a = val s a.
Proof.
  intros Eo Eo' En Eh Hd Ha Eb Er [o' d'|k|k] Hne.
  - destruct (decide (o' = o)) as [->|Ho].
    + assert (d' = other d) as -> by (destruct (dir_cases d d') as [->|]; [by destruct Hne|done]). rewrite (val_at s' o x') by (by rewrite Eo', lookup_insert). rewrite (val_at s o x) by done.
      rewrite Ha by (intros [= H]; by apply other_ne in H). rewrite Eb. destruct (bz (sid x (other d)) || accp s o (other d)); [|done]. f_equal. by apply Er.
    + cbn. rewrite Eo', lookup_insert_ne by done. rewrite Ha by congruence. done.
  - cbn. by rewrite En.
  - by eapply val_HD.
Qed.
(** nothing changes *)
Lemma val_same s s' l :
  (forall o, (λ x, (sr x, sw x, kd x)) <$> objs s' !! o = (λ x, (sr x, sw x, kd x)) <$> objs s !! o) -> acc s' = acc s -> nexts (cq s') = nexts (cq s) -> hist s' = hist s ++ l -> nodrop l ->
  forall a, val s' a = val s a.
Proof.
  intros Ho Ea En Eh Hd [o d|k|k]; [|cbn; by rewrite En|by eapply val_HD]. specialize (Ho o). cbn. unfold accp. rewrite Ea. destruct (objs s' !! o) as [x'|], (objs s !! o) as [x|]; try done.
  cbn in Ho. injection Ho as H1 H2 H3. unfold rqo. destruct d; cbn; by rewrite ?H1, ?H2, ?H3.
Qed.
Lemma flight_same s s' : (forall o, (λ x, (sr x, sw x, kd x)) <$> objs s' !! o = (λ x, (sr x, sw x, kd x)) <$> objs s !! o) -> forall o d, flight s' o d = flight s o d.
Proof.
  intros Ho o d. specialize (Ho o). unfold flight. destruct (objs s' !! o) as [x'|], (objs s !! o) as [x|]; try done.
  cbn in Ho. injection Ho as H1 H2 H3. unfold rqo. destruct d; cbn; by rewrite ?H1, ?H2, ?H3.
Qed.
Lemma flight_side s s' o x x' d :
  objs s !! o = Some x -> objs s' = <[o := x']> (objs s) ->
  sid x' (other d) = sid x (other d) -> (bz (sid x (other d)) = true -> rqo x' (other d) = rqo x (other d)) ->
  forall o' d', (o', d') <> (o, d) -> flight s' o' d' = flight s o' d'.
Proof.
  intros Eo Eo' Eb Er o' d' Hne. unfold flight. rewrite Eo'. destruct (decide (o' = o)) as [->|Ho]; [|by rewrite lookup_insert_ne].
  assert (d' = other d) as -> by (destruct (dir_cases d d') as [->|]; done). rewrite lookup_insert, Eo, Eb. destruct (bz (sid x (other d))) eqn:E; [|done]. cbn. by rewrite Er.
Qed.
Lemma flight_at s o x d : objs s !! o = Some x -> flight s o d = if bz (sid x d) && negb (f2 (sid x d)) then Some (rqo x d) else None.
Proof. intros E. unfold flight. by rewrite E. Qed.
(** the holders have requests made on them *)
Definition Mk (v : holder -> option nat) (h : list obs) : Prop := forall o d k, v (HS o d) = Some k -> exists c, cside c = d /\ OMade k o c ∈ h.
Lemma Mk_le v v' h l : Mk v h -> (forall o d k, v' (HS o d) = Some k -> v (HS o d) = Some k) -> Mk v' (h ++ l).
Proof. intros H Hv o d k E. destruct (H o d k (Hv _ _ _ E)) as (c & ? & ?). exists c. rewrite elem_of_app. eauto. Qed.
Lemma Mk_add v v' h l o d k c : Mk v h -> (forall a, a <> HS o d -> v' a = v a) -> v' (HS o d) = Some k -> cside c = d -> OMade k o c ∈ l -> Mk v' (h ++ l).
Proof.
  intros H Hv Ek Hc Hl o' d' k' E. setoid_rewrite elem_of_app. destruct (decide (HS o' d' = HS o d)) as [[= -> ->]|Hne].
  - exists c. split; [done|]. right. congruence.
  - rewrite Hv in E by done. destruct (H _ _ _ E) as (c' & ? & ?). eauto.
Qed.
(** the loop's program counter *)
Lemma pcok_mono s s' : pc s' = pc s ->
  (forall o x d, objs s !! o = Some x -> bz (sid x d) = true -> exists x', objs s' !! o = Some x' /\ bz (sid x' d) = true /\ f2 (sid x' d) = f2 (sid x d)) -> pcok s -> pcok s'.
Proof.
  intros Ep H. unfold pcok. rewrite Ep.
  assert (H1 : forall o d, alive_bz s o d -> alive_bz s' o d) by (intros o d (x & E1 & E2); destruct (H _ _ _ E1 E2) as (x' & ? & ? & ?); exists x'; done).
  assert (H2 : forall o d, alive_f2 s o d -> alive_f2 s' o d) by (intros o d (x & E1 & E2 & E3); destruct (H _ _ _ E1 E2) as (x' & ? & ? & ?); exists x'; split_and!; congruence).
  destruct (pc s); naive_solver.
Qed.
Lemma alive_same s s' o d : (forall o, (λ x, (sr x, sw x, kd x)) <$> objs s' !! o = (λ x, (sr x, sw x, kd x)) <$> objs s !! o) -> forall x, objs s !! o = Some x ->
  exists x', objs s' !! o = Some x' /\ sid x' d = sid x d /\ kd x' = kd x.
Proof. intros Ho x E. specialize (Ho o). rewrite E in Ho. destruct (objs s' !! o) as [x'|]; [|done]. cbn in Ho. injection Ho as H1 H2 H3. exists x'. split_and!; [done| |done]. by destruct d. Qed.

Definition core (m : gmap nat ob) : nat -> option (side * side * kind) := λ o, (λ x, (sr x, sw x, kd x)) <$> m !! o.
Lemma core_put o x x' m : m !! o = Some x -> sr x' = sr x -> sw x' = sw x -> kd x' = kd x -> forall o', core (<[o := x']> m) o' = core m o'.
Proof. intros E H1 H2 H3 o'. unfold core. destruct (decide (o' = o)) as [->|]; [rewrite lookup_insert, E; cbn; congruence|by rewrite lookup_insert_ne]. Qed.
(** transitions that leave the requests alone *)
Lemma I_neutral s s' l : I s -> (forall o, core (objs s') o = core (objs s) o) ->
  (forall o x, objs s' !! o = Some x -> kd x <> KListen -> acs x = None) ->
  (forall o k, acc s' = Some (o, k) -> exists x, objs s' !! o = Some x /\ acs x = None) ->
  acc s' = acc s -> cq s' = cq s -> pend s' = pend s -> heap s' = heap s -> nx s' = nx s -> hist s' = hist s ++ l -> nodrop l -> (forall k, answers l k = 0%nat) -> (forall k, ~ made l k) ->
  pcok s' -> I s'.
Proof.
  intros HI Ho Hn Hacs Ea Ec Ep Eheap Enx Eh Hd Ha Hm Hpc. unfold core in Ho.
  assert (Hv : forall a, val s' a = val s a) by (eapply val_same; try done; by rewrite Ec).
  assert (Hb : forall o x, objs s' !! o = Some x -> exists y, objs s !! o = Some y /\ sr y = sr x /\ sw y = sw x /\ kd y = kd x).
  { intros o x E. specialize (Ho o). rewrite E in Ho. cbn in Ho. destruct (objs s !! o) as [y|]; [|done]. injection Ho as -> -> ->. eauto. }
  assert (Hs : forall x y d, sr y = sr x -> sw y = sw x -> sid y d = sid x d) by (by intros ?? []).
  constructor.
  - rewrite Eh, Enx. by eapply K_ext; [apply (i_k _ HI)|..].
  - rewrite Ec, Ep. eapply P_perm; [apply (i_p _ HI)|done|]. by apply flight_same.
  - intros o x d Eo. destruct (Hb _ _ Eo) as (y & E & H1 & H2 & H3). rewrite <- (Hs x y), <- H3 by done. by apply (i_f2 _ HI o).
  - intros o x Eo. destruct (Hb _ _ Eo) as (y & E & H1 & H2 & H3). rewrite <- H2, <- H3. by apply (i_lis _ HI o).
  - done.
  - intros o x Eo. destruct (Hb _ _ Eo) as (y & E & H1 & H2 & H3). rewrite <- H3. by apply (i_udp _ HI o).
  - rewrite Eh. eapply Mk_le; [exact (i_made _ HI)|]. intros o d k. by rewrite Hv.
  - intros o k E. destruct (Hacs _ _ E) as (x & Eo & En). rewrite Ea in E. destruct (i_acc _ HI _ _ E) as (y & E1 & H1 & H2 & H3 & H4). destruct (Hb _ _ Eo) as (y' & E' & G1 & G2 & G3).
    assert (y' = y) as -> by congruence. exists x. split_and!; congruence.
  - intros k. rewrite Eheap, Ec. apply (i_heap _ HI).
  - rewrite Ec. apply (i_nnd _ HI).
  - done.
Qed.
