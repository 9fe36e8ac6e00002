(** The invariant of the Windows backend: one lemma per transition. *)
From Verif Require Export IocpProof3.
Local Open Scope Z_scope.

Definition okob (x : ob) : Prop :=
  (forall d, f2 (sid x d) = true -> bz (sid x d) = true /\ kd x = KConn) /\ (kd x = KListen -> bz (sw x) = false) /\ (kd x <> KListen -> acs x = None) /\ kd x <> KUdp false.
Lemma I_okob s o x : I s -> objs s !! o = Some x -> okob x.
Proof. intros HI E. split_and!; [intros d; by apply (i_f2 _ HI o)|by apply (i_lis _ HI o)|by apply (i_nacs _ HI o)|by apply (i_udp _ HI o)]. Qed.
Lemma I_intro s : K (val s) (hist s) (nx s) -> P (pend s ++ cops (cq s)) (flight s) -> (forall o x, objs s !! o = Some x -> okob x) -> Mk (val s) (hist s) ->
  (forall o k, acc s = Some (o, k) -> exists x, objs s !! o = Some x /\ kd x = KListen /\ bz (sr x) = false /\ rq (sw x) = k /\ acs x = None) ->
  (forall k, k ∈ heap s <-> k ∈ nexts (cq s)) -> NoDup (nexts (cq s)) -> pcok s -> I s.
Proof. intros H1 H2 H3 H4 H5 H6 H7 H8. constructor; try done; [intros o x d E|intros o x E..]; destruct (H3 o x E) as (G1 & G2 & G3 & G4); auto. Qed.
Lemma okob_put s o x' : I s -> okob x' -> forall o' x, <[o := x']> (objs s) !! o' = Some x -> okob x.
Proof. intros HI Hx o' x [[_ <-]|[_ E]]%lookup_insert_Some; [done|]. by eapply I_okob. Qed.
(** a new request on a side *)
Lemma I_add s s' o x x' d c pl : I s -> objs s !! o = Some x -> objs s' = <[o := x']> (objs s) -> okob x' -> kd x' = kd x ->
  bz (sid x d) = false -> accp s o d = false -> bz (sid x' d) || accp s' o d = true -> rqo x' d = nx s ->
  sid x' (other d) = sid x (other d) \/ (kd x = KListen /\ d = R /\ bz (sw x') = false /\ f2 (sw x') = false /\ f2 (sw x) = false) ->
  (forall o' d', (o', d') <> (o, d) -> accp s' o' d' = accp s o' d') ->
  cq s' = cq s -> heap s' = heap s -> pc s' = pc s -> nx s' = S (nx s) -> hist s' = hist s ++ [OMade (nx s) o c] -> cside c = d ->
  pend s' = pend s ++ pl -> (bz (sid x' d) && negb (f2 (sid x' d)) = true /\ pl = [(o, d, nx s)] \/ bz (sid x' d) && negb (f2 (sid x' d)) = false /\ pl = []) ->
  (forall o k, acc s' = Some (o, k) -> exists x, objs s' !! o = Some x /\ kd x = KListen /\ bz (sr x) = false /\ rq (sw x) = k /\ acs x = None) -> I s'.
Proof.
  intros HI Eo Eo' Hok Ekd Eb Eap Eb' Er Hs Hap Ecq Eheap Epc Enx Eh Hc Epend Hpl Hacc.
  pose proof (I_okob _ _ _ HI Eo) as (F1 & F2 & F3 & F4).
  assert (Hnd : nodrop [OMade (nx s) o c]) by by repeat constructor.
  assert (Hb' : bz (sid x' (other d)) = bz (sid x (other d))) by (destruct Hs as [->|(H1 & -> & H2 & _)]; [done|]; cbn; rewrite H2; symmetry; by apply F2).
  assert (Hr : bz (sid x (other d)) || accp s o (other d) = true -> rqo x' (other d) = rqo x (other d)).
  { intros H. unfold rqo. rewrite Ekd. destruct Hs as [Hs|(H1 & -> & H2 & _)].
    - destruct (decide (kd x = KListen)) as [Hl|Hl]; [|by rewrite Hs]. destruct d; cbn in *; [by rewrite Hs|].
      exfalso. (* d = W on a listener *) revert Eb'. destruct Hok as (_ & G & _). rewrite G by congruence. cbn. unfold accp. by destruct (acc s') as [[]|].
    - cbn in H. rewrite F2 in H by done. cbn in H. unfold accp in H. by destruct (acc s) as [[]|]. }
  assert (Hv : forall a, a <> HS o d -> val s' a = val s a) by (eapply val_side; eauto; by rewrite Ecq).
  assert (Hv0 : val s (HS o d) = None) by by rewrite (val_at _ _ _ _ Eo), Eb, Eap.
  assert (Eo'' : objs s' !! o = Some x') by by rewrite Eo', lookup_insert.
  assert (Hv1 : val s' (HS o d) = Some (nx s)) by by rewrite (val_at _ _ _ _ Eo''), Eb', Er.
  apply I_intro.
  - rewrite Eh, Enx. eapply (K_add _ _ _ _ _ (i_k _ HI)); try done. intros k. unfold made. setoid_rewrite elem_of_list_singleton. split; [intros [(?&?&[=])|(?&[=])]; done|intros ->; eauto].
  - rewrite Ecq, Epend. assert (Hf : forall o' d', (o', d') <> (o, d) -> flight s' o' d' = flight s o' d').
    { intros o' d' Hne. unfold flight. rewrite Eo'. destruct (decide (o' = o)) as [->|Ho]; [|by rewrite lookup_insert_ne]. rewrite lookup_insert, Eo.
      assert (d' = other d) as -> by (destruct (dir_cases d d') as [->|]; done). rewrite Hb'.
      assert (Hf2 : f2 (sid x' (other d)) = f2 (sid x (other d))) by (destruct Hs as [->|(H1 & -> & H2 & H3 & H4)]; [done|]; cbn; congruence). rewrite Hf2.
      destruct (bz (sid x (other d))) eqn:E; [|done]. cbn. by rewrite Hr. }
    destruct Hpl as [[Hb ->]|[Hb ->]].
    + eapply P_perm; [eapply (P_add _ _ (flight s') o d (nx s)); [apply (i_p _ HI)|by rewrite (flight_at _ _ _ _ Eo), Eb|by rewrite (flight_at _ _ _ _ Eo''), Hb, Er|done]| |done].
      rewrite <- app_assoc. cbn. by rewrite Permutation_middle.
    + rewrite app_nil_r. eapply P_perm; [apply (i_p _ HI)|done|]. intros o' d'. destruct (decide ((o', d') = (o, d))) as [[= -> ->]|Hne]; [|by apply Hf].
      by rewrite (flight_at _ _ _ _ Eo''), (flight_at _ _ _ _ Eo), Hb, Eb.
  - rewrite Eo'. by apply okob_put.
  - rewrite Eh. eapply Mk_add; [exact (i_made _ HI)|exact Hv|exact Hv1|exact Hc|by apply elem_of_list_singleton].
  - done.
  - intros k. rewrite Eheap, Ecq. apply (i_heap _ HI).
  - rewrite Ecq. apply (i_nnd _ HI).
  - eapply pcok_mono; [done| |apply (i_pc _ HI)]. intros o' y d' Ey Hb. destruct (decide (o' = o)) as [->|Hne].
    + assert (y = x) as -> by congruence. exists x'. split; [done|]. assert (d' = other d) as -> by (destruct (dir_cases d d') as [->|]; [congruence|done]). rewrite Hb'. split; [done|].
      destruct Hs as [->|(H1 & -> & H2 & H3 & H4)]; [done|]. cbn in *. congruence.
    + exists y. by rewrite Eo', lookup_insert_ne.
Qed.
(** a request that is answered at once *)
Lemma I_inst s s' o x x' d l : I s -> objs s !! o = Some x -> objs s' = <[o := x']> (objs s) -> okob x' -> kd x' = kd x -> acc s = None -> acc s' = None ->
  bz (sid x d) = false -> bz (sid x' d) = false -> sid x' (other d) = sid x (other d) -> (kd x = KListen -> bz (sid x (other d)) = false) ->
  cq s' = cq s -> heap s' = heap s -> pc s' = pc s -> pend s' = pend s -> nx s' = S (nx s) -> hist s' = hist s ++ l -> nodrop l ->
  (forall k, answers l k = if decide (k = nx s) then 1%nat else 0%nat) -> (forall k, made l k <-> k = nx s) -> I s'.
Proof.
  intros HI Eo Eo' Hok Ekd Ea Ea' Eb Eb' Hs Hl Ecq Eheap Epc Epend Enx Eh Hnd Han Hm.
  assert (Hap : forall o' d', accp s' o' d' = accp s o' d') by (intros; unfold accp; by rewrite Ea, Ea').
  assert (Hr : bz (sid x (other d)) = true -> rqo x' (other d) = rqo x (other d)).
  { intros H. unfold rqo. rewrite Ekd. destruct (decide (kd x = KListen)) as [H1|]; [rewrite Hl in H; done|by rewrite Hs]. }
  assert (Hv1 : forall a, a <> HS o d -> val s' a = val s a).
  { eapply val_side; eauto; [by rewrite Ecq|by rewrite Hs|]. intros H. apply Hr. revert H. unfold accp. rewrite Ea. by rewrite orb_false_r. }
  assert (Eo'' : objs s' !! o = Some x') by by rewrite Eo', lookup_insert.
  assert (Hv : forall a, val s' a = val s a).
  { intros a. destruct (decide (a = HS o d)) as [->|Hne]; [|by apply Hv1]. rewrite (val_at _ _ _ _ Eo''), (val_at _ _ _ _ Eo), Eb, Eb', Hap. unfold accp. rewrite Ea. done. }
  apply I_intro.
  - rewrite Eh, Enx. by apply (K_instant _ _ _ _ _ (i_k _ HI)).
  - rewrite Ecq, Epend. eapply P_perm; [apply (i_p _ HI)|done|]. intros o' d'. destruct (decide ((o', d') = (o, d))) as [[= -> ->]|Hne].
    + by rewrite (flight_at _ _ _ _ Eo''), (flight_at _ _ _ _ Eo), Eb', Eb.
    + by eapply flight_side.
  - rewrite Eo'. by apply okob_put.
  - rewrite Eh. eapply Mk_le; [exact (i_made _ HI)|]. intros o' d' k. by rewrite Hv.
  - intros ??. congruence.
  - intros k. rewrite Eheap, Ecq. apply (i_heap _ HI).
  - rewrite Ecq. apply (i_nnd _ HI).
  - eapply pcok_mono; [done| |apply (i_pc _ HI)]. intros o' y d' Ey Hb. destruct (decide (o' = o)) as [->|Hne].
    + assert (y = x) as -> by congruence. exists x'. split; [done|]. assert (d' = other d) as -> by (destruct (dir_cases d d') as [->|]; [congruence|done]). by rewrite Hs.
    + exists y. by rewrite Eo', lookup_insert_ne.
Qed.
(** the request of a side is answered *)
Lemma I_ans s s' o x x' d v pl : I s -> objs s !! o = Some x -> objs s' = <[o := x']> (objs s) -> okob x' -> kd x' = kd x -> acc s = None -> acc s' = None ->
  bz (sid x d) = true -> bz (sid x' d) = false -> sid x' (other d) = sid x (other d) -> (kd x = KListen -> d = R) ->
  nexts (cq s') = nexts (cq s) -> heap s' = heap s -> nx s' = nx s -> hist s' = hist s ++ [OCb (rqo x d) v] ->
  pend s ++ cops (cq s) = pl ++ (pend s' ++ cops (cq s')) \/ pend s ++ cops (cq s) = pend s' ++ pl ++ cops (cq s') ->
  (f2 (sid x d) = false /\ pl = [(o, d, rqo x d)] \/ f2 (sid x d) = true /\ pl = []) -> pcok s' -> I s'.
Proof.
  intros HI Eo Eo' Hok Ekd Ea Ea' Eb Eb' Hs Hl Ecq Eheap Enx Eh Hpl Hf Hpc.
  assert (Hap : forall o' d', accp s' o' d' = accp s o' d') by (intros; unfold accp; by rewrite Ea, Ea').
  assert (Hnd : nodrop [OCb (rqo x d) v]) by by repeat constructor.
  assert (Hlis : kd x = KListen -> bz (sid x (other d)) = false) by (intros H; rewrite (Hl H); cbn; by apply (I_okob _ _ _ HI Eo)).
  assert (Hr : bz (sid x (other d)) = true -> rqo x' (other d) = rqo x (other d)).
  { intros H. unfold rqo. rewrite Ekd. destruct (decide (kd x = KListen)) as [H1|]; [rewrite Hlis in H; done|by rewrite Hs]. }
  assert (Hv1 : forall a, a <> HS o d -> val s' a = val s a).
  { eapply val_side; eauto; [by rewrite Hs|]. intros H. apply Hr. revert H. unfold accp. rewrite Ea. by rewrite orb_false_r. }
  assert (Eo'' : objs s' !! o = Some x') by by rewrite Eo', lookup_insert.
  assert (Hv0 : val s (HS o d) = Some (rqo x d)) by by rewrite (val_at _ _ _ _ Eo), Eb.
  assert (Hv2 : val s' (HS o d) = None) by (rewrite (val_at _ _ _ _ Eo''), Eb'; unfold accp; by rewrite Ea').
  assert (Hfs : forall o' d', (o', d') <> (o, d) -> flight s' o' d' = flight s o' d') by by eapply flight_side.
  assert (Hf' : flight s' o d = None) by by rewrite (flight_at _ _ _ _ Eo''), Eb'.
  apply I_intro.
  - rewrite Eh, Enx. eapply (K_del _ _ _ _ _ (i_k _ HI)); try done.
    + intros k. unfold answers. cbn. destruct (decide (k = rqo x d)) as [->|Hne]; [by rewrite decide_True by (by apply bool_decide_eq_true)|].
      rewrite decide_False; [done|]. intros H%bool_decide_eq_true. congruence.
    + intros k. unfold made. setoid_rewrite elem_of_list_singleton. by intros [(?&?&?)|(?&?)].
  - destruct Hf as [[Hf ->]|[Hf ->]].
    + apply (P_del _ (flight s) _ o d (rqo x d)); [|done|done]. eapply P_perm; [apply (i_p _ HI)| |done].
      destruct Hpl as [Hpl|Hpl]; rewrite Hpl; [done|]. by rewrite Permutation_middle.
    + eapply P_perm; [apply (i_p _ HI)| |].
      * by destruct Hpl as [-> | ->].
      * intros o' d'. destruct (decide ((o', d') = (o, d))) as [[= -> ->]|Hne]; [|by apply Hfs]. by rewrite Hf', (flight_at _ _ _ _ Eo), Hf, andb_false_r.
  - rewrite Eo'. by apply okob_put.
  - rewrite Eh. eapply Mk_le; [exact (i_made _ HI)|]. intros o' d' k E. destruct (decide (HS o' d' = HS o d)) as [[= -> ->]|Hne]; [congruence|]. by rewrite <- Hv1.
  - intros ??. congruence.
  - intros k. rewrite Eheap, Ecq. apply (i_heap _ HI).
  - rewrite Ecq. apply (i_nnd _ HI).
  - done.
Qed.
