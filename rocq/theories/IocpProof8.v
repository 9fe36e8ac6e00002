(** The timeout lists and the READY list of the Windows backend. *)
From Verif Require Export IocpProof7.
Local Open Scope Z_scope.

(** the loop has object [o] in hand and remembers that [d] was busy; will call its callback *)
Definition pcflag (p : pcs) (o : nat) (d : dir) : bool :=
  match p with
  | PW o' r w _ _ | PR o' r w _ | PE o' r w => bool_decide (o' = o) && match d with R => r | W => w end
  | PIdle => false
  end.
Definition pcf2 (p : pcs) (o : nat) (d : dir) : bool :=
  match p with
  | PW o' r w r2 w2 => bool_decide (o' = o) && match d with R => r2 && r | W => w2 && w end
  | PR o' r w r2 => bool_decide (o' = o) && match d with R => r2 && r | W => false end
  | _ => false
  end.
Definition net (x : ob) : Prop := kd x = KConn \/ exists e, kd x = KUdp e.
Record Lx (p : pcs) (o : nat) (x : ob) : Prop := {
  l_busy : loc x <> None -> exists d, bz (sid x d) = true /\ pcflag p o d = false;
  l_f2 : forall d, f2 (sid x d) = true -> loc x = Some LReady \/ pcf2 p o d = true;
  l_sup : forall d, net x -> bz (sid x d) = true -> loc x <> None \/ shut x = true \/ pcflag p o d = true }.
Definition L (s : sys) : Prop := forall o x, objs s !! o = Some x -> Lx (pc s) o x.

Lemma pcflag_bz s o x d : pcok s -> objs s !! o = Some x -> pcflag (pc s) o d = true -> bz (sid x d) = true.
Proof.
  intros HP E H. unfold pcok, pcflag, alive_bz in *. destruct (pc s); [done|destruct HP as (P1 & P2 & _ & _)|destruct HP as (P1 & P2 & _)|destruct HP as (P1 & P2)];
    apply andb_true_iff in H as [->%bool_decide_eq_true H]; (destruct d; [destruct (P1 H) as (y & Ey & ?)|destruct (P2 H) as (y & Ey & ?)]; congruence).
Qed.
Lemma L_put p o x (m : gmap nat ob) : (forall o' y, o' <> o -> m !! o' = Some y -> Lx p o' y) -> Lx p o x -> forall o' y, <[o:=x]> m !! o' = Some y -> Lx p o' y.
Proof. intros H1 H2 o' y [[<- <-]|[Hne E]]%lookup_insert_Some; [done|]. by apply H1. Qed.
Lemma L_pc p p' o' y : Lx p o' y -> (forall d, pcflag p' o' d = pcflag p o' d) -> (forall d, pcf2 p o' d = true -> pcf2 p' o' d = true) -> Lx p' o' y.
Proof.
  intros [H1 H2 H3] E1 E2. constructor.
  - intros Hl. destruct (H1 Hl) as (d & ? & ?). exists d. by rewrite E1.
  - intros d Hd. destruct (H2 d Hd); [by left|]. right. by apply E2.
  - intros d Hn Hd. rewrite E1. by apply H3.
Qed.
Lemma Lx_same p o x x' : sr x' = sr x -> sw x' = sw x -> loc x' = loc x -> kd x' = kd x -> shut x' = shut x -> Lx p o x -> Lx p o x'.
Proof.
  intros E1 E2 E3 E4 E5 [H1 H2 H3].
  assert (E : forall d, sid x' d = sid x d) by by intros []. constructor.
  - rewrite E3. intros Hl. destruct (H1 Hl) as (d & ?). exists d. by rewrite E.
  - intros d. rewrite E, E3. apply H2.
  - intros d Hn. rewrite E, E3, E5. apply H3. unfold net in *. by rewrite <- E4.
Qed.
(** a request is made on side [d], which was free *)
Lemma Lx_new p o x d f k l : Lx p o x -> (pcflag p o d = true -> bz (sid x d) = true) -> bz (sid x d) = false -> (f = true -> l = Some LReady) ->
  (net x -> l <> None) -> (loc x = Some LReady -> l = Some LReady) -> (net x \/ l <> None -> l <> None) ->
  Lx p o (upd_side x d (Sd true f k) l).
Proof.
  intros [H1 H2 H3] Hp Hb Hf Hn Hr _. unfold upd_side.
  assert (E : forall l d', sid (set_loc (set_sid x d (Sd true f k)) l) d' = if decide (d' = d) then Sd true f k else sid x d') by (intros l' d'; by destruct d, d').
  assert (En : net (set_loc (set_sid x d (Sd true f k)) l) -> net x) by by destruct d.
  assert (Es : shut (set_loc (set_sid x d (Sd true f k)) l) = shut x) by by destruct d.
  constructor.
  - intros _. exists d. rewrite E, decide_True by done. split; [done|]. destruct (pcflag p o d); [|done]. rewrite Hp in Hb; done.
  - intros d'. rewrite E. cbn [loc set_loc]. destruct (decide (d' = d)) as [->|Hne]; [cbn; eauto|]. intros Hd. destruct (H2 d' Hd) as [?|?]; eauto.
  - intros d' Hnn. rewrite E, Es. cbn [loc set_loc]. destruct (decide (d' = d)) as [->|Hne]; [eauto|]. intros Hd. left. eauto.
Qed.
Lemma Lx_free p o x d k : Lx p o x -> bz (sid x d) = false -> Lx p o (set_sid x d (Sd false false k)).
Proof.
  intros [H1 H2 H3] Hb.
  assert (E : forall d', sid (set_sid x d (Sd false false k)) d' = if decide (d' = d) then Sd false false k else sid x d') by (intros d'; by destruct d, d').
  assert (El : loc (set_sid x d (Sd false false k)) = loc x /\ shut (set_sid x d (Sd false false k)) = shut x /\ kd (set_sid x d (Sd false false k)) = kd x) by by destruct d.
  destruct El as (E1 & E2 & E3). constructor.
  - rewrite E1. intros Hl. destruct (H1 Hl) as (d' & Hd & ?). exists d'. rewrite E. rewrite decide_False; [done|]. intros ->. congruence.
  - intros d'. rewrite E, E1. destruct (decide (d' = d)) as [->|Hne]; [done|]. apply H2.
  - intros d' Hn. rewrite E, E1, E2. destruct (decide (d' = d)) as [->|Hne]; [done|]. apply H3. unfold net in *. by rewrite <- E3.
Qed.
(** the callback of side [d] runs from the READY loop *)
Lemma Lx_ev p p' o x d k : Lx p o x -> pcflag p o d = true -> (forall d', d' <> d -> pcflag p' o d' = pcflag p o d') -> (forall d', d' <> d -> pcf2 p o d' = true -> pcf2 p' o d' = true) ->
  Lx p' o (set_sid x d (Sd false false k)).
Proof.
  intros [H1 H2 H3] Hp Hq Hq2.
  assert (E : forall d', sid (set_sid x d (Sd false false k)) d' = if decide (d' = d) then Sd false false k else sid x d') by (intros d'; by destruct d, d').
  assert (El : loc (set_sid x d (Sd false false k)) = loc x /\ shut (set_sid x d (Sd false false k)) = shut x /\ kd (set_sid x d (Sd false false k)) = kd x) by by destruct d.
  destruct El as (E1 & E2 & E3). constructor.
  - rewrite E1. intros Hl. destruct (H1 Hl) as (d' & Hd & Hd'). exists d'. assert (d' <> d) by (intros ->; congruence). rewrite E, decide_False, Hq by done. done.
  - intros d'. rewrite E, E1. destruct (decide (d' = d)) as [->|Hne]; [done|]. intros Hd. destruct (H2 d' Hd); [by left|]. right. by apply Hq2.
  - intros d' Hn. rewrite E, E1, E2. destruct (decide (d' = d)) as [->|Hne]; [done|]. rewrite Hq by done. apply H3. unfold net in *. by rewrite <- E3.
Qed.
Lemma pcflag_ne p o o' d : match p with PIdle => True | PW q _ _ _ _ | PR q _ _ _ | PE q _ _ => q = o end -> o' <> o -> pcflag p o' d = false /\ pcf2 p o' d = false.
Proof. intros H Hne. destruct p; subst; cbn; rewrite ?bool_decide_false by done; done. Qed.

Lemma L_tr s s' : I s -> L s -> tr s s' -> L s'.
Proof.
  intros HI HL T. pose proof (i_pc _ HI) as HP. destruct T; unfold L in *.
  - apply L_put; [intros; by apply HL|]. constructor; [done|by intros []|by intros [] ?].
  - cbn. intros q y [_ E]%lookup_delete_Some. by apply HL.
  - apply L_put; [intros; by apply HL|]. apply Lx_new; try done; [by apply HL|intros Hp; by eapply pcflag_bz|..].
    + intros Hn. destruct H4 as [[-> [?|Ek]]|[? [-> | ->]]]; try done. destruct Hn as [Hn|(e & Hn)]; congruence.
    + intros El. destruct H4 as [[-> _]|[Ez _]]; [done|congruence].
    + intros [Hn|?]; [|done]. destruct H4 as [[-> [?|Ek]]|[? [-> | ->]]]; try done. destruct Hn as [Hn|(e & Hn)]; congruence.
  - apply L_put; [intros; by apply HL|]. apply Lx_free; [by apply HL|done].
  - apply L_put; [intros; by apply HL|]. apply Lx_new; try done; [by apply HL|intros Hp; by eapply pcflag_bz].
  - apply L_put; [intros; by apply HL|]. apply (Lx_free (pc s) o x W); [by apply HL|]. by apply (i_lis _ HI o).
  - apply L_put; [intros; by apply HL|]. apply (Lx_free (pc s) o x W); [by apply HL|]. by apply (i_lis _ HI o).
  - apply L_put; [intros; by apply HL|]. destruct (i_acc _ HI _ _ H) as (y & Ey & Ek & Eb & _). assert (y = x) as -> by congruence. pose proof (HL _ _ H0) as [H1 H2 H3].
    constructor; cbn [loc set_sid set_acs shut kd].
    + intros _. exists R. split; [done|]. destruct (pcflag (pc s) o R) eqn:Ep; [|done]. pose proof (pcflag_bz _ _ _ _ HP H0 Ep). cbn in *. congruence.
    + intros [] Hd; [done|]. by apply (H2 W).
    + intros d [Hn|(e & Hn)]; cbn in Hn; congruence.
  - done.
  - done.
  - apply L_put; [intros; by apply HL|]. eapply Lx_same; [..|by apply HL]; done.
  - apply L_put; [intros; by apply HL|]. eapply Lx_same; [..|by apply HL]; done.
  - done.
  - done.
  - done.
  - (* hop *) cbn [objs pc log put s_objs s_cq]. apply L_put; [intros; by apply HL|]. pose proof (HL _ _ H0) as [L1 L2 L3]. rewrite H3 in *. cbn in L1, L2, L3.
    assert (E : forall d', sid (upd_side x d (Sd false false (rq (sid x d))) (after x)) d' = if decide (d' = d) then Sd false false (rq (sid x d)) else sid x d') by (intros d'; by destruct d, d').
    assert (Ea : after x = if bz (sid x (other d)) then if f2 (sid x (other d)) then loc x else Some LRw else None).
    { unfold after. destruct d; cbn in *; rewrite H1, H2; cbn; [|rewrite andb_true_r, orb_false_r]; done. }
    constructor.
    + intros Hl. unfold upd_side in Hl. cbn [loc set_loc] in Hl. exists (other d). rewrite E. rewrite decide_False by by destruct d. split; [|done]. rewrite Ea in Hl. by destruct (bz (sid x (other d))).
    + intros d' Hf. rewrite E in Hf. destruct (decide (d' = d)) as [->|Hne]; [done|]. assert (d' = other d) as -> by by destruct d, d'.
      left. unfold upd_side. cbn [loc set_loc]. rewrite Ea. destruct (i_f2 _ HI o x _ H0 Hf) as [-> _]. rewrite Hf. by destruct (L2 _ Hf).
    + intros d' Hn Hb. rewrite E in Hb. destruct (decide (d' = d)) as [->|Hne]; [done|]. assert (d' = other d) as -> by by destruct d, d'. left. unfold upd_side. cbn [loc set_loc]. rewrite Ea, Hb.
      destruct (f2 (sid x (other d))) eqn:Ef; [|done]. destruct (L2 _ Ef) as [->|?]; done.
  - done.
  - (* ready *) cbn [objs pc s_pc put s_objs]. apply L_put.
    + intros q y Hq E. eapply (L_pc PIdle); [rewrite <- H1; by apply HL|..]; intros d; cbn; rewrite bool_decide_false by done; done.
    + constructor; cbn [loc set_loc].
      * done.
      * intros d Hf. right. pose proof (i_f2 _ HI _ _ d H Hf) as [Hb _]. cbn. rewrite bool_decide_true by done. destruct d; cbn in *; by rewrite Hf, Hb.
      * intros d Hn Hb. right. right. cbn. rewrite bool_decide_true by done. by destruct d.
  - (* evW *) cbn [objs pc s_pc put s_objs log]. apply L_put.
    + intros q y Hq E. eapply (L_pc (pc s)); [by apply HL|..]; intros d; rewrite H0; cbn; rewrite bool_decide_false by done; done.
    + eapply (Lx_ev (pc s)); [by apply HL|..]; rewrite H0; cbn; rewrite bool_decide_true by done; [done|..]; by intros [].
  - (* evR *) cbn [objs pc s_pc put s_objs log]. apply L_put.
    + intros q y Hq E. eapply (L_pc (pc s)); [by apply HL|..]; intros d; rewrite H0; cbn; rewrite bool_decide_false by done; done.
    + eapply (Lx_ev (pc s)); [by apply HL|..]; rewrite H0; cbn; rewrite bool_decide_true by done; [done|..]; by intros [].
  - cbn. intros q y E. eapply (L_pc (pc s)); [by apply HL|..]; rewrite H; cbn; intros d; [done|]. destruct d; [done|]. rewrite H0. by rewrite andb_false_r.
  - cbn. intros q y E. eapply (L_pc (pc s)); [by apply HL|..]; rewrite H; cbn; intros d; [done|]. destruct d; [rewrite H0|]; by rewrite andb_false_r.
  - cbn. intros q y E. eapply (L_pc (pc s)); [by apply HL|..]; rewrite H; cbn; intros []; by rewrite ?andb_false_r.
  - (* list *) cbn [objs pc s_pc put s_objs]. apply L_put.
    + intros q y Hq E. eapply (L_pc (pc s)); [by apply HL|..]; intros d; rewrite H0; cbn; rewrite ?bool_decide_false by done; done.
    + pose proof (HL _ _ H) as [L1 L2 L3]. rewrite H0 in *. cbn in L2.
      assert (Ec : sr (list_rw x) = sr x /\ sw (list_rw x) = sw x /\ loc (list_rw x) = match loc x with None => Some LRw | y => y end) by (unfold list_rw; by destruct (loc x) eqn:E).
      destruct Ec as (C1 & C2 & C3). assert (E : forall d, sid (list_rw x) d = sid x d) by by intros [].
      constructor.
      * intros _. assert (exists d, pcflag (PE o r w) o d = true) as (d & Hd).
        { cbn. rewrite bool_decide_true by done. destruct r; [by exists R|]. by exists W. }
        exists d. rewrite E. split; [|done]. eapply pcflag_bz; [done..|]. by rewrite H0.
      * intros d. rewrite E, C3. intros Hf. left. by destruct (L2 d Hf) as [->|?].
      * intros d _ _. left. rewrite C3. by destruct (loc x).
  - done.
  - (* shut *) cbn [objs pc log put s_objs]. apply L_put; [intros; by apply HL|]. pose proof (HL _ _ H) as [L1 L2 L3]. rewrite H1 in *. constructor; cbn.
    + done.
    + intros d Hf. destruct (L2 d) as [E|?]; [by destruct d|..]; [|done]. destruct H0; congruence.
    + intros d _ _. auto.
Qed.
Lemma L_init : L init.
Proof. by intros o x. Qed.
